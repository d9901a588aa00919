(** C51: instrument files. *)
From Coq Require Import String Ascii List Arith Bool Lia.
From Verif Require Import Base TextModel TextProof InstrFileModel InstrFileProof.
Import ListNotations.
Local Open Scope string_scope.

(** A text that stays on one line, and is not cut off or changed there. *)
Definition plain (s : string) : Prop := has newline s = false /\ has "=" s = false /\ contains "instrument." s = false /\ strip s = s.
(** Values Python prints as [text] does: numbers as numbers, texts that are neither numbers nor contain a bracket, decimal numbers in arrays. *)
Definition printed (v : value) : Prop :=
  match v with
  | Num s => is_float s = true
  | Text s | Other s => plain s /\ has "[" s = false /\ is_float s = false
  | Lst l => Forall (fun s => is_float s = true) l
  | Arr l => Forall (fun s => decimal s = true) l
  end.
(** Array elements that need no blanks to be aligned. *)
Definition aligned (l : list string) : Prop := forall s t, In s l -> In t l -> String.length (int_part s) = String.length (int_part t) /\ String.length (frac_word s) = String.length (frac_word t).
(** What can be read back: not the lists with several elements or none, nor the arrays without elements or with blanks. *)
Definition readable (v : value) : Prop :=
  match v with Num _ | Text _ | Other _ => True | Lst l => List.length l = 1 | Arr l => l <> [] /\ aligned l end.
(** The same number, text, or sequence of numbers; None, True and False are the same as their texts. *)
Definition same (v w : value) : Prop :=
  match v, w with
  | Num s, Num t => refloat s = refloat t
  | Text s, Text t | Other s, Text t => s = t
  | Lst l, Lst m | Arr l, Lst m | Arr l, Arr m | Lst l, Arr m => map refloat l = map refloat m
  | _, _ => False
  end.

(** ** Values *)
Lemma contains_s s : allc float_char s = true -> contains "instrument." s = false.
Proof. intros H. destruct (contains "instrument." s) eqn:C; [|reflexivity]. apply (contains_has "s") in C; [|reflexivity]. rewrite (allc_has _ "s" _ H) in C by reflexivity. discriminate. Qed.
Lemma float_plain s : is_float s = true -> plain s /\ has "[" s = false.
Proof. intros H. assert (A := float_chars s H). repeat split; try (apply (allc_has _ _ _ A); reflexivity); [apply contains_s; exact A|apply strip_no_space, float_no_space; exact A]. Qed.
(** Characters of the text of a list of numbers. *)
Definition list_char (c : ascii) : bool := float_char c || mem (String c "") [" "; ","].
Lemma allc_join f c l : allc f c = true -> Forall (fun s => allc f s = true) l -> allc f (join c l) = true.
Proof. intros C. induction 1 as [|s l H HL IH]; [reflexivity|]. destruct l as [|t l]; [exact H|]. change (join c (s :: t :: l)) with (s ++ c ++ join c (t :: l)). rewrite !allc_app, H, C, IH. reflexivity. Qed.
Lemma allc_imp (f g : ascii -> bool) s : (forall c, f c = true -> g c = true) -> allc f s = true -> allc g s = true.
Proof. intros I. induction s as [|c s IH]; [reflexivity|]. cbn. intros H. apply andb_prop in H. destruct H as (A & B). rewrite (I c A), (IH B). reflexivity. Qed.
Lemma bracket_plain s : allc list_char s = true -> plain ("[" ++ s ++ "]") /\ remove "[" (remove "]" ("[" ++ s ++ "]")) = s.
Proof.
  intros A. assert (N : forall c, list_char c = false -> has c s = false) by (intros c H; apply (allc_has _ _ _ A H)). split.
  - repeat split.
    + rewrite has_app. rewrite has_app. rewrite N by reflexivity. reflexivity.
    + rewrite has_app. rewrite has_app. rewrite N by reflexivity. reflexivity.
    + destruct (contains "instrument." ("[" ++ s ++ "]")) eqn:C; [|reflexivity]. apply (contains_has "s") in C; [|reflexivity]. rewrite has_app, has_app in C. rewrite N in C by reflexivity. discriminate.
    + unfold strip. change ("[" ++ s ++ "]") with (String "[" (s ++ "]")). cbn [lstrip]. change (space "[") with false. cbv iota. change (String "[" (s ++ "]")) with (("[" ++ s) ++ "]"). apply rstrip_app_keep. reflexivity.
  - rewrite !remove_char_app. rewrite (remove_none "]" s) by (rewrite contains_char; apply N; reflexivity). rewrite (remove_none "[" s) by (rewrite contains_char; apply N; reflexivity). change (remove "[" (remove "]" "[") ++ s ++ remove "[" (remove "]" "]")) with (s ++ ""). apply app_nil_r.
Qed.
Lemma map_res_all {A B} (f : A -> res B) g l : (forall x, In x l -> f x = Ok (g x)) -> map_res f l = Ok (map g l).
Proof. induction l as [|x l IH]; intros H; [reflexivity|]. cbn. rewrite (H x) by (left; reflexivity). rewrite IH by (intros; apply H; right; assumption). reflexivity. Qed.
Lemma map_res_float_err l x : In x l -> float x = Err ValueError -> map_res float l = Err ValueError.
Proof.
  induction l as [|y l IH]; intros H E; [contradiction|]. cbn. destruct H as [->|H]; [rewrite E; reflexivity|]. assert (F : forall z, float z = Err ValueError \/ exists t, float z = Ok t) by (intros z; unfold float; destruct (is_float (strip z)); eauto).
  destruct (F y) as [-> | (t & ->)]; [reflexivity|]. rewrite (IH H E). reflexivity.
Qed.
Lemma split_app c a b : split c (a ++ String c b) = List.app (split c a) (split c b).
Proof.
  induction a as [|d a IH]; cbn [append split]; [rewrite Ascii.eqb_refl; reflexivity|]. destruct (Ascii.eqb c d); [cbn [List.app]; f_equal; exact IH|]. rewrite IH. destruct (split_nonempty c a) as (w & r & ->). reflexivity.
Qed.
Lemma split_app_join c ws : ws <> [] -> split c (join (String c "") ws) = flat_map (split c) ws.
Proof.
  intros N. destruct ws as [|w ws]; [contradiction|]. clear N. revert w. induction ws as [|w' ws IH]; intros w; [cbn [join flat_map]; rewrite List.app_nil_r; reflexivity|].
  change (join (String c "") (w :: w' :: ws)) with (w ++ String c (join (String c "") (w' :: ws))). rewrite split_app, IH. reflexivity.
Qed.
Lemma padded_split a s b : (0 < a + b)%nat -> In "" (split " " (repeat_char " " a ++ s ++ repeat_char " " b)).
Proof.
  intros H. destruct a as [|a]; [|left; reflexivity]. cbn [repeat_char append]. destruct b as [|b]; [cbn in H; lia|].
  assert (R : repeat_char " " (S b) = repeat_char " " b ++ " ") by (clear; induction b as [|b IH]; [reflexivity|]; cbn [repeat_char append] in *; f_equal; exact IH).
  rewrite R, app_assoc, split_app. apply in_or_app. right. left. reflexivity.
Qed.
Lemma maxlen_le l s : In s l -> (String.length s <= maxlen l)%nat.
Proof. induction l as [|t l IH]; [contradiction|]. cbn [maxlen fold_right In]. fold (maxlen l). intros [->|H]; [apply Nat.le_max_l|]. specialize (IH H). lia. Qed.
Lemma maxlen_reached l : l <> [] -> exists s, In s l /\ String.length s = maxlen l.
Proof.
  induction l as [|t l IH]; [contradiction|]. intros _. cbn [maxlen fold_right]. fold (maxlen l). destruct l as [|u l]; [exists t; split; [left; reflexivity|cbn; lia]|].
  destruct (IH ltac:(discriminate)) as (s & H & E). destruct (Nat.le_ge_cases (String.length t) (maxlen (u :: l))); [exists s; split; [right; exact H|lia]|exists t; split; [left; reflexivity|lia]].
Qed.
Lemma aligned_words l : l <> [] -> (aligned l -> arr_words l = map word l) /\ (~ aligned l -> exists a s b, (0 < a + b)%nat /\ In (repeat_char " " a ++ s ++ repeat_char " " b) (arr_words l)).
Proof.
  intros N. assert (M1 : map int_part l <> []) by (destruct l; [contradiction|discriminate]). assert (M2 : map frac_word l <> []) by (destruct l; [contradiction|discriminate]).
  destruct (maxlen_reached _ M1) as (w & Hw & Ew). destruct (maxlen_reached _ M2) as (f & Hf & Ef). apply in_map_iff in Hw. destruct Hw as (sw & <- & Hw). apply in_map_iff in Hf. destruct Hf as (sf & <- & Hf). split.
  - intros A. unfold arr_words. cbv zeta. apply map_ext_in. intros s Hs. rewrite <- Ew, <- Ef. rewrite (proj1 (A s sw Hs Hw)), (proj2 (A s sf Hs Hf)), !Nat.sub_diag. cbn [repeat_char append]. rewrite app_nil_r. reflexivity.
  - intros A. assert (X : exists s, In s l /\ (String.length (int_part s) <> String.length (int_part sw) \/ String.length (frac_word s) <> String.length (frac_word sf))).
    { assert (Dec : Forall (fun s => String.length (int_part s) = String.length (int_part sw) /\ String.length (frac_word s) = String.length (frac_word sf)) l \/ Exists (fun s => ~ (String.length (int_part s) = String.length (int_part sw) /\ String.length (frac_word s) = String.length (frac_word sf))) l).
      { destruct (Forall_Exists_dec (fun s => String.length (int_part s) = String.length (int_part sw) /\ String.length (frac_word s) = String.length (frac_word sf))) with (l := l); auto. intros s. destruct (Nat.eq_dec (String.length (int_part s)) (String.length (int_part sw))); [|right; tauto]. destruct (Nat.eq_dec (String.length (frac_word s)) (String.length (frac_word sf))); [left; tauto|right; tauto]. }
      destruct Dec as [F|E].
      - exfalso. apply A. rewrite Forall_forall in F. intros s t Hs Ht. destruct (F s Hs), (F t Ht). split; congruence.
      - apply Exists_exists in E. destruct E as (s & Hs & Hn). exists s. split; [exact Hs|]. destruct (Nat.eq_dec (String.length (int_part s)) (String.length (int_part sw))); [right|left; assumption]. intros Y. apply Hn. split; assumption. }
    destruct X as (s & Hs & Hn). exists (maxlen (map int_part l) - String.length (int_part s))%nat, (int_part s ++ frac_word s), (maxlen (map frac_word l) - String.length (frac_word s))%nat. split.
    + assert (L1 := maxlen_le (map int_part l) _ (in_map int_part l s Hs)). assert (L2 := maxlen_le (map frac_word l) _ (in_map frac_word l s Hs)). lia.
    + unfold arr_words. cbv zeta. rewrite <- app_assoc. apply in_map_iff. exists s. split; [reflexivity|exact Hs].
Qed.
Lemma repeat_allc f c n : f c = true -> allc f (repeat_char c n) = true.
Proof. intros H. induction n as [|n IH]; [reflexivity|]. cbn. rewrite H, IH. reflexivity. Qed.
Lemma word_chars s : decimal s = true -> allc float_char (int_part s) = true /\ allc float_char (frac_word s) = true.
Proof. intros H. destruct (decimal_float s H) as (_ & H2). apply float_chars in H2. unfold word in H2. rewrite allc_app in H2. apply andb_prop in H2. exact H2. Qed.
Lemma list_of_float s : allc float_char s = true -> allc list_char s = true.
Proof. apply allc_imp. intros c H. unfold list_char. rewrite H. reflexivity. Qed.
Lemma value_text v : printed v -> plain (text v).
Proof.
  destruct v as [s|s|s|l|l]; cbn [printed text].
  - intros H. apply float_plain. exact H.
  - tauto.
  - tauto.
  - intros H. apply bracket_plain. apply allc_join; [reflexivity|]. revert H. apply Forall_impl. intros s H. apply list_of_float, float_chars, H.
  - intros H. apply bracket_plain. apply allc_join; [reflexivity|]. rewrite Forall_forall in *. intros x Hx. unfold arr_words in Hx. cbv zeta in Hx. apply in_map_iff in Hx. destruct Hx as (s & <- & Hs). destruct (word_chars s (H s Hs)) as (W1 & W2).
    rewrite !allc_app, !repeat_allc, (list_of_float _ W1), (list_of_float _ W2) by reflexivity. reflexivity.
Qed.
Lemma has_bracket s : contains "[" ("[" ++ s) = true. Proof. destruct s; reflexivity. Qed.
(** Each printed value is read as the same one if it is readable, and gives ValueError otherwise. *)
Lemma convert_text v : printed v -> (readable v -> exists w, convert (text v) = Ok w /\ same v w /\ printed w /\ (forall l, v = Arr l -> exists m, w = Lst m /\ Forall (fun s => decimal s = true) m)) /\ (~ readable v -> convert (text v) = Err ValueError).
Proof.
  destruct v as [s|s|s|l|l]; cbn [printed text readable]; intros H.
  - split; [|tauto]. intros _. exists (Num (refloat s)). unfold convert. rewrite contains_char. rewrite (proj2 (float_plain s H)). rewrite (float_ok s H). split; [reflexivity|]. cbn [same printed]. split; [symmetry; apply refloat_idem|split; [apply is_float_refloat; exact H|discriminate]].
  - split; [|tauto]. intros _. exists (Text s). unfold convert, float. rewrite contains_char. destruct H as ((P1 & P2 & P3 & P4) & B & F). rewrite B. rewrite P4, F. split; [reflexivity|]. split; [reflexivity|]. cbn. split; [repeat split; assumption|discriminate].
  - split; [|tauto]. intros _. exists (Text s). unfold convert, float. rewrite contains_char. destruct H as ((P1 & P2 & P3 & P4) & B & F). rewrite B. rewrite P4, F. split; [reflexivity|]. split; [reflexivity|]. cbn. split; [repeat split; assumption|discriminate].
  - unfold convert. rewrite has_bracket. assert (A : allc list_char (join ", " l) = true) by (apply allc_join; [reflexivity|]; revert H; apply Forall_impl; intros s H; apply list_of_float, float_chars, H).
    rewrite (proj2 (bracket_plain _ A)). destruct l as [|s l]; [|destruct l as [|t l]].
    + split; [cbn; lia|]. reflexivity.
    + split; [|cbn; lia]. intros _. inversion H as [|? ? H1 H2]; subst. exists (Lst [refloat s]). cbn [join]. rewrite split_none by (apply (allc_has float_char); [apply float_chars; exact H1|reflexivity]). cbn [map_res]. rewrite (float_ok s H1). cbn [bind]. split; [reflexivity|]. split; [cbn; rewrite refloat_idem; reflexivity|]. split; [constructor; [apply is_float_refloat; exact H1|constructor]|discriminate].
    + split; [cbn; lia|]. intros _. change (join ", " (s :: t :: l)) with (s ++ "," ++ String " " (join ", " (t :: l))). rewrite app_assoc. rewrite split_app.
      rewrite (map_res_float_err _ (s ++ ",")); [reflexivity| |]; [|apply (not_float ","); [reflexivity|reflexivity|rewrite has_app; apply orb_true_r]].
      apply in_or_app. left. inversion H as [|? ? H1 H2]; subst. rewrite split_none; [left; reflexivity|]. rewrite has_app. rewrite (allc_has float_char _ _ (float_chars s H1)) by reflexivity. reflexivity.
  - unfold convert. rewrite has_bracket. assert (A : allc list_char (join " " (arr_words l)) = true).
    { apply allc_join; [reflexivity|]. rewrite Forall_forall in *. intros x Hx. unfold arr_words in Hx. cbv zeta in Hx. apply in_map_iff in Hx. destruct Hx as (s & <- & Hs). destruct (word_chars s (H s Hs)) as (W1 & W2). rewrite !allc_app, !repeat_allc, (list_of_float _ W1), (list_of_float _ W2) by reflexivity. reflexivity. }
    rewrite (proj2 (bracket_plain _ A)). destruct (list_eq_dec String.string_dec l []) as [->|N]. { split; [tauto|]. reflexivity. }
    assert (N' : arr_words l <> []) by (destruct l; [contradiction|discriminate]). destruct (aligned_words l N) as (A1 & A2). rewrite Forall_forall in H. split.
    + intros (_ & Al). rewrite (A1 Al) in *. exists (Lst (map (fun s => refloat (word s)) l)). rewrite split_of_join.
      * rewrite (map_res_all float refloat) by (intros x Hx; apply in_map_iff in Hx; destruct Hx as (s & <- & Hs); apply float_ok; apply decimal_float; apply H; exact Hs). cbn [bind]. rewrite map_map. split; [reflexivity|]. cbn [same printed]. split.
        -- rewrite map_map. apply map_ext_in. intros s Hs. rewrite refloat_idem. symmetry. apply decimal_refloat. apply H. exact Hs.
        -- split.
           ++ rewrite Forall_forall. intros x Hx. apply in_map_iff in Hx. destruct Hx as (s & <- & Hs). apply is_float_refloat. apply decimal_float. apply H. exact Hs.
           ++ intros k _. eexists. split; [reflexivity|]. rewrite Forall_forall. intros x Hx. apply in_map_iff in Hx. destruct Hx as (s & <- & Hs). destruct (decimal_refloat s (H s Hs)) as (-> & D). exact D.
      * exact N'.
      * rewrite Forall_forall. intros x Hx. apply in_map_iff in Hx. destruct Hx as (s & <- & Hs). apply (allc_has float_char); [apply float_chars; apply decimal_float; apply H; exact Hs|reflexivity].
    + intros NR. assert (NA : ~ aligned l) by tauto. destruct (A2 NA) as (a & s & b & Hab & Hin). rewrite split_app_join by exact N'. rewrite (map_res_float_err _ ""); [reflexivity| |reflexivity]. apply in_flat_map. eexists. split; [exact Hin|]. apply padded_split. exact Hab.
Qed.

(** ** Lines and files *)
Definition name_of (g k : string) : string := match g with "" => k | _ => g ++ "." ++ k end.
Definition path (g k : string) : list string := match g with "" => [k] | _ => [g; k] end.
Lemma names_ok g k : In (g, k) saved_names -> has newline (left_of g k) = false /\ has "=" (name_of g k) = false /\ contains "instrument." (name_of g k) = false /\ map strip (split "." (name_of g k ++ " ")) = path g k.
Proof.
  assert (C : forallb (fun '(g, k) => negb (has newline (left_of g k)) && negb (has "=" (name_of g k)) && negb (contains "instrument." (name_of g k)) && if list_eq_dec String.string_dec (map strip (split "." (name_of g k ++ " "))) (path g k) then true else false) saved_names = true) by (vm_compute; reflexivity).
  intros H. rewrite forallb_forall in C. specialize (C _ H). cbv beta iota in C. apply andb_prop in C. destruct C as (C & C4). apply andb_prop in C. destruct C as (C & C3). apply andb_prop in C. destruct C as (C1 & C2). apply negb_true_iff in C1, C2, C3.
  destruct (list_eq_dec String.string_dec (map strip (split "." (name_of g k ++ " "))) (path g k)); [auto|discriminate].
Qed.
Lemma parse_saved g k t : In (g, k) saved_names -> plain t -> parse_line (left_of g k ++ t) = Ok (path g k, t).
Proof.
  intros H (P1 & P2 & P3 & P4). destruct (names_ok g k H) as (N1 & N2 & N3 & N4). unfold parse_line.
  assert (E : left_of g k ++ t = "instrument." ++ (name_of g k ++ " ") ++ String "=" (String " " t)) by (unfold left_of; fold (name_of g k); rewrite <- !app_assoc; reflexivity).
  rewrite E. rewrite remove_prefix. rewrite remove_none.
  - rewrite split_at by (rewrite has_app, N2; reflexivity). rewrite split_none by exact P2. rewrite N4. rewrite strip_space by reflexivity. rewrite P4. reflexivity.
  - rewrite <- app_assoc. change (" " ++ String "=" (String " " t)) with (String " " ("=" ++ String " " t)). rewrite contains_sep by (reflexivity || discriminate). rewrite N3. rewrite contains_sep by (reflexivity || discriminate). rewrite P3. reflexivity.
Qed.
Lemma entries_spec I g k v : In (g, k, v) (entries I) <-> In (g, k) saved_names /\ val I g k = Some v.
Proof.
  unfold entries. rewrite in_flat_map. split.
  - intros ((g' & k') & H & E). destruct (val I g' k') as [v'|] eqn:V; [|contradiction]. destruct E as [E|[]]. injection E as -> -> ->. auto.
  - intros (H & V). exists (g, k). split; [exact H|]. rewrite V. left. reflexivity.
Qed.
Lemma load_content I : (forall g k v, In (g, k) saved_names -> val I g k = Some v -> printed v) ->
  load (content I) = assign_all default (map (fun '(g, k, v) => (path g k, text v)) (entries I)).
Proof.
  intros H. assert (P : forall g k v, In (g, k, v) (entries I) -> In (g, k) saved_names /\ plain (text v)) by (intros g k v Hin; apply entries_spec in Hin; destruct Hin as (A & B); split; [exact A|]; apply value_text; eapply H; eassumption).
  unfold load, content. assert (E : map (fun '(g, k, v) => line_of (left_of g k ++ text v)) (entries I) = map line_of (map (fun '(g, k, v) => left_of g k ++ text v) (entries I))) by (rewrite map_map; apply map_ext; intros ((g & k) & v); reflexivity).
  rewrite E, lines_concat.
  - assert (M : map_res parse_line (map (fun '(g, k, v) => left_of g k ++ text v) (entries I)) = Ok (map (fun '(g, k, v) => (path g k, text v)) (entries I))).
    { revert P. generalize (entries I). clear. induction l as [|((g & k) & v) l IH]; intros P; [reflexivity|]. cbn [map map_res]. destruct (P g k v ltac:(left; reflexivity)) as (A & B). rewrite (parse_saved g k (text v) A B). rewrite IH by (intros; apply P; right; assumption). reflexivity. }
    rewrite M. reflexivity.
  - rewrite Forall_forall. intros x Hx. apply in_map_iff in Hx. destruct Hx as (((g & k) & v) & <- & Hin). destruct (P g k v Hin) as (A & B & _). rewrite has_app, B. rewrite (proj1 (names_ok g k A)). reflexivity.
Qed.
Lemma assign_app I a b : assign_all I (List.app a b) = bind (assign_all I a) (fun J => assign_all J b).
Proof. revert I. induction a as [|(p & r) a IH]; intros I; [reflexivity|]. cbn [List.app assign_all]. destruct (convert r) as [v|e]; [|reflexivity]. cbn [bind]. destruct (assign I p v) as [J|e]; [apply IH|reflexivity]. Qed.
(** How a value read from a file compares with the value [v] saved: the same; and printed the same way again. *)
Definition read_back (g k : string) (v w : value) : Prop :=
  same v w /\ ((g = "sample" /\ (k = "u" \/ k = "v") -> exists l, v = Arr l) -> printed w) /\
  (forall l, v = Arr l -> ~ (g = "sample" /\ (k = "u" \/ k = "v")) -> exists m, w = Lst m).
Lemma assign_saved I g k w : (g = "" \/ sub I g = true) -> assign I (path g k) w = Ok (put I g k (match g with "" => w | _ => attr_set g k w end)).
Proof. intros [->|H]; [reflexivity|]. destruct g as [|c g]; [reflexivity|]. unfold path, assign. rewrite H. reflexivity. Qed.
Lemma attr_set_cases g k w : attr_set g k w = w \/ (g = "sample" /\ (k = "u" \/ k = "v") /\ exists l, w = Lst l /\ attr_set g k w = Arr l).
Proof.
  unfold attr_set. destruct (String.eqb_spec g "sample"); [|left; reflexivity]. destruct (String.eqb_spec k "u"); cbn [orb andb].
  - destruct w; try (left; reflexivity). right. eauto 6.
  - destruct (String.eqb_spec k "v"); [|left; reflexivity]. destruct w; try (left; reflexivity). right. eauto 6.
Qed.
Lemma convert_set g k v : printed v -> readable v -> exists w, convert (text v) = Ok w /\ read_back g k v (match g with "" => w | _ => attr_set g k w end).
Proof.
  intros P R. destruct (convert_text v P) as (H & _). destruct (H R) as (w & E & S1 & Pw & A). exists w. split; [exact E|].
  assert (B : read_back g k v w).
  { split; [exact S1|]. split; [intros _; exact Pw|]. intros l Hl _. destruct (A l Hl) as (m & -> & _). eauto. }
  destruct g as [|c g]; [exact B|]. destruct (attr_set_cases (String c g) k w) as [->|(G & K & l & -> & ->)]; [exact B|]. split; [|split].
  - destruct v; cbn in S1 |- *; try contradiction; exact S1.
  - intros Q. destruct (Q (conj G K)) as (l' & ->). destruct (A l' eq_refl) as (m & Em & Dm). injection Em as <-. exact Dm.
  - intros l' _ N. exfalso. apply N. auto.
Qed.
Definition todo (l : list (string * string * value)) : list (list string * string) := map (fun '(g, k, v) => (path g k, text v)) l.
Lemma assign_entries l : forall I, NoDup (map fst l) -> (forall g k v, In (g, k, v) l -> printed v /\ readable v /\ (g = "" \/ sub I g = true)) ->
  exists J, assign_all I (todo l) = Ok J /\ sub J = sub I /\
    (forall g k v, In (g, k, v) l -> exists w, val J g k = Some w /\ read_back g k v w) /\ (forall g k, ~ In (g, k) (map fst l) -> val J g k = val I g k).
Proof.
  induction l as [|((g & k) & v) l IH]; intros I N H.
  - exists I. repeat split. intros ? ? ? [].
  - inversion N as [|? ? N1 N2]; subst. cbn [fst] in N1. destruct (H g k v ltac:(left; reflexivity)) as (P & R & G). destruct (convert_set g k v P R) as (w & E & B).
    set (w' := match g with "" => w | _ => attr_set g k w end) in *. destruct (IH (put I g k w') N2) as (J & EJ & SJ & VJ & OJ).
    + intros g' k' v' Hin. exact (H g' k' v' (or_intror Hin)).
    + exists J. split; [|split; [|split]].
      * cbn [todo map assign_all]. rewrite E. cbn [bind]. rewrite (assign_saved I g k w G). exact EJ.
      * exact SJ.
      * intros g' k' v' [Hin|Hin]; [|exact (VJ g' k' v' Hin)]. injection Hin as <- <- <-. exists w'. split; [|exact B]. rewrite (OJ g k N1). cbn [put val]. rewrite !String.eqb_refl. reflexivity.
      * intros g' k' Hn. rewrite OJ by (intros Hin; apply Hn; right; exact Hin). cbn [put val]. destruct (String.eqb_spec g' g); [|reflexivity]. destruct (String.eqb_spec k' k); [|reflexivity]. exfalso. apply Hn. left. cbn. congruence.
Qed.
Lemma assign_unreadable l : forall I, (forall g k v, In (g, k, v) l -> printed v /\ (g = "" \/ sub I g = true)) -> (exists g k v, In (g, k, v) l /\ ~ readable v) -> assign_all I (todo l) = Err ValueError.
Proof.
  induction l as [|((g & k) & v) l IH]; intros I H (g1 & k1 & v1 & Hin & N); [contradiction|].
  destruct (H g k v ltac:(left; reflexivity)) as (P & G). destruct (convert_text v P) as (A & B). cbn [todo map assign_all].
  destruct (convert (text v)) as [w|e] eqn:E.
  - destruct Hin as [Hin|Hin]; [injection Hin as -> -> ->; discriminate (B N)|]. cbn [bind]. rewrite (assign_saved I g k w G). cbn [bind]. apply IH; [|eauto].
    intros g' k' v' Hin'. exact (H g' k' v' (or_intror Hin')).
  - assert (C : ~ readable v) by (intros R; destruct (A R) as (w & Ew & _); discriminate). specialize (B C). injection B as ->. reflexivity.
Qed.
(** The attributes of Smooth are saved last. *)
Definition smooth_names : list (string * string) := [("Smooth", "X"); ("Smooth", "Y"); ("Smooth", "Z"); ("Smooth", "E")].
Definition other_names : list (string * string) := firstn 47 saved_names.
Definition present (I : inst) (l : list (string * string)) := flat_map (fun '(g, k) => match val I g k with Some v => [(g, k, v)] | None => [] end) l.
Lemma saved_split : saved_names = List.app other_names smooth_names. Proof. vm_compute. reflexivity. Qed.
Lemma entries_split I : entries I = List.app (present I other_names) (present I smooth_names).
Proof. unfold entries, present. rewrite saved_split, flat_map_app. reflexivity. Qed.
Lemma present_spec I l g k v : In (g, k, v) (present I l) <-> In (g, k) l /\ val I g k = Some v.
Proof.
  unfold present. rewrite in_flat_map. split.
  - intros ((g' & k') & H & E). destruct (val I g' k') as [v'|] eqn:V; [|contradiction]. destruct E as [E|[]]. injection E as -> -> ->. auto.
  - intros (H & V). exists (g, k). split; [exact H|]. rewrite V. left. reflexivity.
Qed.
Lemma present_fst I l : forall g k, In (g, k) (map fst (present I l)) <-> In (g, k) l /\ val I g k <> None.
Proof.
  intros g k. rewrite in_map_iff. split.
  - intros (((g' & k') & v) & E & H). cbn in E. injection E as -> ->. apply present_spec in H. destruct H as (H & V). split; [exact H|congruence].
  - intros (H & V). destruct (val I g k) as [v|] eqn:E; [|contradiction]. exists (g, k, v). split; [reflexivity|]. apply present_spec. auto.
Qed.
Lemma present_NoDup I l : NoDup l -> NoDup (map fst (present I l)).
Proof.
  induction 1 as [|(g & k) l H HN IH]; [constructor|]. cbn [present flat_map]. fold (present I l). destruct (val I g k); [|exact IH]. cbn [List.app map fst]. constructor; [|exact IH]. intros C. apply present_fst in C. destruct C as (C & _). contradiction.
Qed.
Fixpoint nodupb (l : list (string * string)) : bool := match l with [] => true | (g, k) :: l => negb (existsb (fun '(g', k') => String.eqb g g' && String.eqb k k') l) && nodupb l end.
Lemma nodupb_spec l : nodupb l = true -> NoDup l.
Proof.
  induction l as [|(g & k) l IH]; [constructor|]. cbn [nodupb]. intros H. apply andb_prop in H. destruct H as (A & B). constructor; [|exact (IH B)]. apply negb_true_iff in A. intros C.
  assert (X : existsb (fun '(g', k') => String.eqb g g' && String.eqb k k') l = true) by (apply existsb_exists; exists (g, k); split; [exact C|]; rewrite !String.eqb_refl; reflexivity). congruence.
Qed.
Lemma other_NoDup : NoDup other_names.
Proof. apply nodupb_spec. vm_compute. reflexivity. Qed.
Lemma other_groups g k : In (g, k) other_names -> (g = "" \/ sub default g = true) /\ g <> "Smooth".
Proof.
  assert (C : forallb (fun '(g, k) => (String.eqb g "" || sub default g) && negb (String.eqb g "Smooth")) other_names = true) by (vm_compute; reflexivity).
  intros H. rewrite forallb_forall in C. specialize (C _ H). cbv beta iota in C. apply andb_prop in C. destruct C as (C1 & C2). split.
  - apply orb_prop in C1. destruct C1 as [C1|C1]; [left; apply String.eqb_eq; exact C1|right; exact C1].
  - intros ->. discriminate.
Qed.
Lemma in_saved g k : In (g, k) saved_names <-> In (g, k) other_names \/ In (g, k) smooth_names.
Proof. rewrite saved_split. apply in_app_iff. Qed.
Lemma in_smooth g k : In (g, k) smooth_names -> g = "Smooth".
Proof. intros H. repeat (destruct H as [H|H]; [injection H as <- _; reflexivity|]). contradiction. Qed.

(** ** C51 *)
(** The attributes in a file, with the object they belong to. *)
Definition in_file : list (string * string) :=
  [("", "efixed"); ("", "arms"); ("", "hcol"); ("", "vcol"); ("", "method"); ("", "moncor"); ("", "infin");
   ("mono", "tau"); ("mono", "height"); ("mono", "width"); ("mono", "depth"); ("mono", "direct"); ("mono", "mosaic"); ("mono", "vmosaic"); ("mono", "rh"); ("mono", "rv");
   ("ana", "tau"); ("ana", "height"); ("ana", "width"); ("ana", "depth"); ("ana", "direct"); ("ana", "mosaic"); ("ana", "vmosaic"); ("ana", "rh"); ("ana", "rv");
   ("ana", "horifoc"); ("ana", "thickness"); ("ana", "Q");
   ("detector", "height"); ("detector", "width"); ("detector", "depth"); ("guide", "height"); ("guide", "width");
   ("sample", "a"); ("sample", "b"); ("sample", "c"); ("sample", "alpha"); ("sample", "beta"); ("sample", "gamma"); ("sample", "u"); ("sample", "v");
   ("sample", "mosaic"); ("sample", "vmosaic"); ("sample", "height"); ("sample", "width"); ("sample", "depth"); ("sample", "direct");
   ("Smooth", "X"); ("Smooth", "Y"); ("Smooth", "Z"); ("Smooth", "E")].
Lemma in_file_saved : saved_names = in_file. Proof. reflexivity. Qed.

Lemma roundtrip I : (forall g k v, In (g, k) in_file -> val I g k = Some v -> printed v /\ readable v /\ g <> "Smooth") ->
  exists J, load (content I) = Ok J /\ (forall g k v, In (g, k) in_file -> val I g k = Some v -> exists w, val J g k = Some w /\ read_back g k v w) /\
    (forall g k, (In (g, k) in_file -> val I g k = None) -> val J g k = val default g k).
Proof.
  rewrite <- in_file_saved. intros H. assert (N : present I smooth_names = []).
  { destruct (present I smooth_names) as [|((g & k) & v) l] eqn:E; [reflexivity|]. exfalso. assert (Hin : In (g, k, v) (present I smooth_names)) by (rewrite E; left; reflexivity). apply present_spec in Hin. destruct Hin as (A & B). destruct (H g k v) as (_ & _ & C); [apply in_saved; right; exact A|exact B|]. apply C. apply (in_smooth g k A). }
  assert (HN : NoDup (map fst (present I other_names))) by apply present_NoDup, other_NoDup.
  destruct (assign_entries (present I other_names) default HN) as (J & EJ & _ & VJ & OJ).
  - intros g k v Hin. apply present_spec in Hin. destruct Hin as (A & B). destruct (H g k v) as (C1 & C2 & _); [apply in_saved; left; exact A|exact B|]. split; [exact C1|]. split; [exact C2|]. apply (other_groups g k A).
  - exists J. split; [|split].
    + rewrite load_content by (intros g k v A B; apply (H g k v A B)). rewrite entries_split, N, List.app_nil_r. exact EJ.
    + intros g k v A B. apply VJ. apply present_spec. split; [|exact B]. apply in_saved in A. destruct A as [A|A]; [exact A|]. exfalso. destruct (H g k v) as (_ & _ & C); [apply in_saved; right; exact A|exact B|]. apply C. apply (in_smooth g k A).
    + intros g k A. apply OJ. intros C. apply present_fst in C. destruct C as (C & V). apply V. apply A. apply in_saved. left. exact C.
Qed.
(** Loading the file of an instrument gives an instrument with the same value for each attribute in the file; everything else is as in a new
    instrument.  All values must print on one line, sequences with several elements must be arrays whose elements are equally wide, and there
    must be no smoothing. *)
Theorem C51_roundtrip : forall I,
  (forall g k v, In (g, k) in_file -> val I g k = Some v -> printed v /\ readable v /\ g <> "Smooth") ->
  exists J, load (content I) = Ok J /\ (forall g k v, In (g, k) in_file -> val I g k = Some v -> exists w, val J g k = Some w /\ same v w) /\
    (forall g k, (In (g, k) in_file -> val I g k = None) -> val J g k = val default g k).
Proof.
  intros I H. destruct (roundtrip I H) as (J & E & A & B). exists J. split; [exact E|]. split; [|exact B]. intros g k v Hin V. destruct (A g k v Hin V) as (w & Ew & S1 & _). eauto.
Qed.
Print Assumptions C51_roundtrip.
(** A file with a longer list, or with an array whose elements are not equally wide, can be written but not loaded. *)
Theorem C51_unreadable : forall I g k v,
  (forall g k v, In (g, k) in_file -> val I g k = Some v -> printed v) ->
  In (g, k) in_file -> g <> "Smooth" -> val I g k = Some v -> ~ readable v -> load (content I) = Err ValueError.
Proof.
  rewrite <- in_file_saved. intros I g k v H Hin HS V NR. rewrite load_content by exact H. rewrite entries_split, map_app. fold (todo (present I other_names)). rewrite assign_app, assign_unreadable; [reflexivity| |].
  - intros g' k' v' Hin'. apply present_spec in Hin'. destruct Hin' as (A & B). split; [apply (H g' k' v'); [apply in_saved; left; exact A|exact B]|apply (other_groups g' k' A)].
  - exists g, k, v. split; [|exact NR]. apply present_spec. split; [|exact V]. apply in_saved in Hin. destruct Hin as [A|A]; [exact A|]. exfalso. apply HS. apply (in_smooth g k A).
Qed.
Print Assumptions C51_unreadable.
(** Numbers as Python writes them - minus sign, digits, fraction, and exponent with or without sign - are among those the loader takes for numbers. *)
Theorem C51_numbers : forall m i f x, (m = "" \/ m = "-") -> nonempty i = true -> all_digits i = true ->
  (f = "" \/ exists d, f = "." ++ d /\ nonempty d = true /\ all_digits d = true) ->
  (x = "" \/ exists g d, x = "e" ++ g ++ d /\ (g = "" \/ g = "+" \/ g = "-") /\ nonempty d = true /\ all_digits d = true) ->
  printed (Num (m ++ i ++ f ++ x)) /\ float (m ++ i ++ f ++ x) = Ok (refloat (m ++ i ++ f ++ x)).
Proof.
  intros m i f x Hm Ni Di Hf Hx.
  assert (F : is_float (m ++ i ++ f ++ x) = true).
  { unfold is_float. apply orb_true_iff. right. rewrite frun_decimal by assumption. rewrite frun_app.
    assert (Q : frun FInt f = FInt \/ frun FInt f = FFrac).
    { destruct Hf as [-> | (d & -> & Nd & Dd)]; [auto|]. right. destruct d as [|c d]; [discriminate|]. cbn in Dd. apply andb_prop in Dd. destruct Dd as (D1 & D2). cbn [append frun]. change (fstep FInt ".") with FPoint. rewrite fstep_digit by exact D1. apply frun_digits; auto. }
    destruct Hx as [-> | (g & d & -> & Hg & Nd & Dd)].
    { destruct Q as [-> | ->]; reflexivity. }
    assert (X : forall q d, all_digits d = true -> q = FExpD -> frun q d = FExpD).
    { clear. intros q d H ->. induction d as [|c d IH]; [reflexivity|]. cbn in H. apply andb_prop in H. destruct H as (H1 & H2). cbn [frun]. rewrite fstep_digit by exact H1. apply IH. exact H2. }
    destruct d as [|c d]; [discriminate|]. cbn in Dd. apply andb_prop in Dd. destruct Dd as (D1 & D2).
    assert (Y : frun (frun FInt f) ("e" ++ g ++ String c d) = FExpD).
    { destruct Q as [-> | ->]; destruct Hg as [-> | [-> | ->]]; cbn [append frun].
      all: change (fstep FInt "e") with FExp; change (fstep FFrac "e") with FExp; change (fstep FExp "+") with FExpSign; change (fstep FExp "-") with FExpSign.
      all: rewrite fstep_digit by exact D1; apply X; auto. }
    rewrite Y. reflexivity. }
  split; [exact F|]. apply float_ok. exact F.
Qed.
Print Assumptions C51_numbers.
Example C51_numbers_example : printed (Num "-2.5e-05") /\ float "-2.5e-05" = Ok "-2.5e-05".
Proof. apply (C51_numbers "-" "2" ".5" "e-05"); try reflexivity; [auto | right; exists "5"; auto | right; exists "-", "05"; auto]. Qed.
(** So are infinities and nan, in capitals or not, with or without a sign. *)
Theorem C51_infinities : forall m w, In m [""; "+"; "-"] -> In (lower w) ["inf"; "infinity"; "nan"] -> printed (Num (m ++ w)) /\ float (m ++ w) = Ok (refloat (m ++ w)).
Proof.
  intros m w Hm Hw. assert (F : is_float (m ++ w) = true).
  { unfold is_float. apply orb_true_iff. left. unfold special. assert (U : unsigned (m ++ w) = w).
    { destruct Hm as [<-|[<-|[<-|[]]]]; cbn [append unsigned]; try reflexivity. destruct w as [|c w]; [reflexivity|]. cbn [unsigned]. destruct (Ascii.eqb_spec c "+") as [->|]; [exfalso; cbn in Hw; repeat (destruct Hw as [Hw|Hw]; [discriminate|]); exact Hw|]. destruct (Ascii.eqb_spec c "-") as [->|]; [exfalso; cbn in Hw; repeat (destruct Hw as [Hw|Hw]; [discriminate|]); exact Hw|]. reflexivity. }
    rewrite U. destruct Hw as [<-|[<-|[<-|[]]]]; reflexivity. }
  split; [exact F|]. apply float_ok. exact F.
Qed.
Print Assumptions C51_infinities.
Example C51_infinities_example : float "-Infinity" = Ok (refloat "-Infinity").
Proof. apply (C51_infinities "-" "Infinity"); cbn; auto. Qed.
(** So can the file of an instrument with smoothing: a new instrument has no object for it. *)
Theorem C51_smooth : forall I k v,
  (forall g k v, In (g, k) in_file -> val I g k = Some v -> printed v /\ readable v) ->
  In ("Smooth", k) in_file -> val I "Smooth" k = Some v -> load (content I) = Err AttributeError.
Proof.
  rewrite <- in_file_saved. intros I k v H Hin V. rewrite load_content by (intros g' k' v' A B; apply (H g' k' v' A B)). rewrite entries_split, map_app. fold (todo (present I other_names)). rewrite assign_app.
  assert (HN : NoDup (map fst (present I other_names))) by apply present_NoDup, other_NoDup.
  destruct (assign_entries (present I other_names) default HN) as (J & EJ & SJ & _).
  - intros g' k' v' Hin'. apply present_spec in Hin'. destruct Hin' as (A & B). destruct (H g' k' v') as (C1 & C2); [apply in_saved; left; exact A|exact B|]. split; [exact C1|]. split; [exact C2|]. apply (other_groups g' k' A).
  - rewrite EJ. cbn [bind]. assert (Hs : In ("Smooth", k, v) (present I smooth_names)).
    { apply present_spec. split; [|exact V]. apply in_saved in Hin. destruct Hin as [A|A]; [|exact A]. exfalso. apply (proj2 (other_groups _ _ A)). reflexivity. }
    destruct (present I smooth_names) as [|((g1 & k1) & v1) l] eqn:E; [contradiction|]. assert (H1 : In (g1, k1, v1) (present I smooth_names)) by (rewrite E; left; reflexivity).
    apply present_spec in H1. destruct H1 as (A1 & B1). assert (G := in_smooth g1 k1 A1). subst g1. destruct (H "Smooth" k1 v1) as (P & R); [apply in_saved; right; exact A1|exact B1|].
    destruct (convert_text v1 P) as (C & _). destruct (C R) as (w & Ew & _). cbn [map assign_all]. rewrite Ew. cbn [bind path assign]. rewrite SJ. reflexivity.
Qed.
Print Assumptions C51_smooth.
(** Arrays come back as lists, which are printed with commas: the file of a loaded instrument cannot be loaded if it has collimations. *)
Theorem C51_second : forall I J l,
  (forall g k v, In (g, k) in_file -> val I g k = Some v -> printed v /\ readable v /\ g <> "Smooth") ->
  (forall k, k = "u" \/ k = "v" -> exists l, val I "sample" k = Some (Arr l)) ->
  val I "" "hcol" = Some (Arr l) -> (2 <= List.length l)%nat ->
  load (content I) = Ok J -> load (content J) = Err ValueError.
Proof.
  intros I J l H U HC L2 LJ. destruct (roundtrip I H) as (J' & E & A & B). rewrite LJ in E. injection E as <-.
  destruct (A "" "hcol" (Arr l)) as (w & Ew & S1 & _ & C); [cbn; tauto|exact HC|]. destruct (C l eq_refl) as (m & ->); [intros (X & _); discriminate|].
  apply (C51_unreadable J "" "hcol" (Lst m)); [|cbn; tauto|discriminate|exact Ew|].
  - intros g k v Hin V. destruct (val I g k) as [v0|] eqn:V0.
    + destruct (A g k v0 Hin V0) as (w & Ew' & _ & P & _). assert (v = w) by congruence. subst v. apply P. intros (G & K). subst g. destruct (U k K) as (l0 & El). exists l0. congruence.
    + rewrite (B g k) in V by (intros _; exact V0). clear - V Hin. revert V. rewrite <- in_file_saved in Hin.
      assert (C : forallb (fun '(g, k) => match val default g k with Some (Num s) => is_float s | Some (Text s) | Some (Other s) => String.eqb s "PG(002)" | Some (Lst m) => false | Some (Arr m) => forallb decimal m | None => true end) saved_names = true) by (vm_compute; reflexivity).
      rewrite forallb_forall in C. specialize (C _ Hin). cbv beta iota in C. intros V. rewrite V in C. destruct v as [s|s|s|m|m]; cbn [printed].
      * exact C.
      * apply String.eqb_eq in C. subst s. repeat split.
      * apply String.eqb_eq in C. subst s. repeat split.
      * discriminate.
      * apply Forall_forall. rewrite forallb_forall in C. exact C.
  - cbn. cbn in S1. apply (f_equal (@List.length string)) in S1. rewrite !map_length in S1. lia.
Qed.
Print Assumptions C51_second.
(** A test for the hypotheses of the theorems, used for the examples. *)
Definition alignedb (l : list string) : bool := forallb (fun s => forallb (fun t => Nat.eqb (String.length (int_part s)) (String.length (int_part t)) && Nat.eqb (String.length (frac_word s)) (String.length (frac_word t))) l) l.
Definition fine (v : value) : bool :=
  match v with
  | Num s => is_float s
  | Text s | Other s => negb (has newline s) && negb (has "=" s) && negb (contains "instrument." s) && String.eqb (strip s) s && negb (has "[" s) && negb (is_float s)
  | Lst l => forallb is_float l && Nat.eqb (List.length l) 1
  | Arr l => forallb decimal l && alignedb l && negb (Nat.eqb (List.length l) 0)
  end.
Lemma fine_spec v : fine v = true -> printed v /\ readable v.
Proof.
  assert (T : forall s, negb (has newline s) && negb (has "=" s) && negb (contains "instrument." s) && String.eqb (strip s) s && negb (has "[" s) && negb (is_float s) = true -> plain s /\ has "[" s = false /\ is_float s = false).
  { intros s H. repeat (apply andb_prop in H; destruct H as (H & ?)). repeat match goal with X : negb _ = true |- _ => apply negb_true_iff in X end. repeat split; auto. apply String.eqb_eq. assumption. }
  destruct v as [s|s|s|l|l]; cbn [fine printed readable]; intros H.
  - auto.
  - split; [apply T; exact H|trivial].
  - split; [apply T; exact H|trivial].
  - apply andb_prop in H. destruct H as (A & B). split; [apply Forall_forall; rewrite forallb_forall in A; exact A|apply Nat.eqb_eq; exact B].
  - apply andb_prop in H. destruct H as (A & B). apply andb_prop in A. destruct A as (A & C). split; [apply Forall_forall; rewrite forallb_forall in A; exact A|]. split; [destruct l; [discriminate B|discriminate]|].
    intros s t Hs Ht. unfold alignedb in C. rewrite forallb_forall in C. specialize (C s Hs). rewrite forallb_forall in C. specialize (C t Ht). apply andb_prop in C. destruct C as (C & D). split; apply Nat.eqb_eq; assumption.
Qed.
Definition all_fine (I : inst) : bool := forallb (fun '(g, k) => match val I g k with Some v => fine v && negb (String.eqb g "Smooth") | None => true end) in_file.
Lemma all_fine_spec I : all_fine I = true -> forall g k v, In (g, k) in_file -> val I g k = Some v -> printed v /\ readable v /\ g <> "Smooth".
Proof.
  unfold all_fine. rewrite forallb_forall. intros H g k v Hin V. specialize (H _ Hin). cbv beta iota in H. rewrite V in H. apply andb_prop in H. destruct H as (A & B). destruct (fine_spec v A) as (P & R). split; [exact P|]. split; [exact R|]. intros ->. discriminate.
Qed.
(** An instrument with curved crystals, its own collimations, arms and a hexagonal sample. *)
Definition example : inst :=
  put (put (put (put (put (put (put (put default "" "efixed" (Num "5")) "" "hcol" (Arr ["80"; "40"; "40"; "60"])) "" "arms" (Arr ["150.5"; "160.5"; "110.5"; "120.5"])) "mono" "rh" (Num "262.5"))
    "ana" "tau" (Text "Si(111)")) "sample" "gamma" (Num "120")) "" "method" (Num "1")) "sample" "u" (Arr ["1"; "1"; "0"]).
Example C51_example_hyp : forall g k v, In (g, k) in_file -> val example g k = Some v -> printed v /\ readable v /\ g <> "Smooth".
Proof. apply all_fine_spec. vm_compute. reflexivity. Qed.
Example C51_example : exists J, load (content example) = Ok J /\ val J "" "hcol" = Some (Lst ["80.0"; "40.0"; "40.0"; "60.0"]) /\ val J "" "efixed" = Some (Num "5.0") /\ val J "ana" "tau" = Some (Text "Si(111)")
  /\ val J "sample" "u" = Some (Arr ["1.0"; "1.0"; "0.0"]) /\ load (content J) = Err ValueError.
Proof. destruct (load (content example)) as [J|e] eqn:E; vm_compute in E; [|discriminate]. exists J. split; [reflexivity|]. injection E as <-. vm_compute. auto. Qed.
(** Collimations 40, 40, 120, 40: readable is false. *)
Example C51_unreadable_example : let I := put example "" "hcol" (Arr ["40"; "40"; "120"; "40"]) in
  (forall g k v, In (g, k) in_file -> val I g k = Some v -> printed v) /\ ~ readable (Arr ["40"; "40"; "120"; "40"]) /\ load (content I) = Err ValueError.
Proof.
  cbv zeta. split; [|split].
  - intros g k v Hin V. destruct (string_dec g ""), (string_dec k "hcol"); try (apply (C51_example_hyp g k v Hin); rewrite <- V; cbn [put val]; destruct (String.eqb_spec g ""), (String.eqb_spec k "hcol"); (contradiction || reflexivity)).
    subst. cbn [put val] in V. vm_compute in V. injection V as <-. cbn. repeat constructor.
  - intros (_ & A). destruct (A "40" "120") as (B & _); [left; reflexivity|right; right; left; reflexivity|]. discriminate.
  - vm_compute. reflexivity.
Qed.
Example C51_smooth_example : let I := put example "Smooth" "X" (Num "0.01") in
  (forall g k v, In (g, k) in_file -> val I g k = Some v -> printed v /\ readable v) /\ load (content I) = Err AttributeError.
Proof.
  cbv zeta. split; [|vm_compute; reflexivity]. intros g k v Hin V. destruct (string_dec g "Smooth"), (string_dec k "X"); try (destruct (C51_example_hyp g k v Hin) as (A & B & _); [|auto]; rewrite <- V; cbn [put val]; destruct (String.eqb_spec g "Smooth"), (String.eqb_spec k "X"); (contradiction || reflexivity)).
  subst. vm_compute in V. injection V as <-. split; [reflexivity|exact I].
Qed.
(** What is not in the file is lost even then: the width of the monitor, the choice of a horizontally focused analyzer, the shape of the sample. *)
Theorem C51_missing_refuted : exists I J, (forall g k v, In (g, k) in_file -> val I g k = Some v -> printed v /\ readable v /\ g <> "Smooth") /\ load (content I) = Ok J /\
  exists v w, val I "monitor" "width" = Some v /\ val I "" "horifoc" = Some w /\ val J "monitor" "width" = None /\ val J "" "horifoc" = None.
Proof.
  set (I := put (put default "monitor" "width" (Num "10.0")) "" "horifoc" (Num "1")). assert (H : forall g k v, In (g, k) in_file -> val I g k = Some v -> printed v /\ readable v /\ g <> "Smooth") by (apply all_fine_spec; vm_compute; reflexivity).
  destruct (C51_roundtrip I H) as (J & E & _ & B). exists I, J. split; [exact H|]. split; [exact E|]. exists (Num "10.0"), (Num "1"). split; [reflexivity|]. split; [reflexivity|].
  split; rewrite B by (intros C; exfalso; repeat (destruct C as [C|C]; [discriminate C|]); exact C); reflexivity.
Qed.
Print Assumptions C51_missing_refuted.

(** Files: saving writes NAME.instr and nothing else. *)
Theorem C51_save : forall I name f, let n := name ++ ".instr" in
  (save_ascii I name true f = (write f n (content I), Ok tt)) /\
  (f n = None -> save_ascii I name false f = (f, Err OSError)) /\
  (forall old, f n = Some old -> exists g, save_ascii I name false f = (g, Ok tt) /\ (forall m, m <> n -> g m = f m) /\
     exists rest, g n = Some (content I ++ rest) /\ (rest = "" <-> (String.length old <= String.length (content I))%nat) /\
       ((String.length (content I) <= String.length old)%nat -> exists top, old = top ++ rest /\ String.length top = String.length (content I))).
Proof.
  intros I name f n. split; [reflexivity|]. unfold save_ascii. fold n. cbv zeta. split; [intros ->; reflexivity|]. intros old ->. eexists. split; [reflexivity|]. split.
  - intros m Hm. unfold write. destruct (String.eqb_spec m n); [contradiction|reflexivity].
  - exists (skip_chars (String.length (content I)) old). unfold write. rewrite String.eqb_refl. split; [reflexivity|].
    generalize (String.length (content I)). clear. intros m. revert old. induction m as [|m IH]; intros old.
    + cbn [skip_chars]. split; [|intros _; exists ""; auto]. destruct old; cbn; split; intros X; (reflexivity || lia || discriminate || (exfalso; lia)).
    + destruct old as [|c old]; cbn [skip_chars String.length].
      * split; [split; [intros; lia|reflexivity]|intros X; exfalso; lia].
      * destruct (IH old) as (A & B). split; [rewrite A; lia|]. intros L. destruct B as (top & Et & Lt); [lia|]. exists (String c top). cbn [append String.length]. rewrite <- Et, Lt. auto.
Qed.
Print Assumptions C51_save.
(** Saving without overwriting over a longer file leaves its last lines: an instrument without a width for its sample comes back with one. *)
Definition wide_sample : inst := put (put default "sample" "height" (Num "1")) "sample" "width" (Num "5").
Theorem C51_leftover_refuted : exists I f J, (forall g k v, In (g, k) in_file -> val I g k = Some v -> printed v /\ readable v /\ g <> "Smooth") /\
  load_ascii "tas.instr" (fst (save_ascii I "tas" false (fst (save_ascii wide_sample "tas" true f)))) = Ok J /\ val I "sample" "width" = None /\ val J "sample" "width" = Some (Num "5.0").
Proof.
  destruct (load_ascii "tas.instr" (fst (save_ascii default "tas" false (fst (save_ascii wide_sample "tas" true (fun _ => None)))))) as [J|e] eqn:E; [|vm_compute in E; discriminate].
  exists default, (fun _ => None), J. split; [apply all_fine_spec; vm_compute; reflexivity|]. split; [exact E|]. split; [reflexivity|]. vm_compute in E. injection E as <-. vm_compute. reflexivity.
Qed.
Print Assumptions C51_leftover_refuted.
(** Or the file cannot be loaded any more. *)
Theorem C51_leftover_error_refuted : exists I f, (forall g k v, In (g, k) in_file -> val I g k = Some v -> printed v /\ readable v /\ g <> "Smooth") /\ (exists J, load_ascii "tas.instr" f = Ok J) /\
  exists e, load_ascii "tas.instr" (fst (save_ascii I "tas" false f)) = Err e.
Proof.
  exists (put default "" "efixed" (Num "5")), (fst (save_ascii default "tas" true (fun _ => None))). split; [apply all_fine_spec; vm_compute; reflexivity|]. split; vm_compute; eauto.
Qed.
Print Assumptions C51_leftover_error_refuted.

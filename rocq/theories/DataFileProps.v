(** C50, C69: data files. *)
From Coq Require Import String Ascii List Arith Bool QArith Lia.
From Verif Require Import Base DataModel TextModel TextProof DataFileModel DataFileProof.
Import ListNotations.
Local Open Scope string_scope.

(** Names, dictionaries and times that do not interfere with the header. *)
Definition calm (s : string) : Prop := has newline s = false /\ has "#" s = false /\ quiet s /\ contains "npy_col_headers" s = false.
Definition calm_dict (d : dict) : Prop := Forall (fun p => has "'" (fst p) = false /\ has "'" (snd p) = false /\ calm (fst p) /\ calm (snd p)) d.
(** Lines of an old header that do not look like lines of this one. *)
Definition calm_line (h : string) : Prop := quiet (remove "# " h) /\ contains "npy_col_headers" h = false.

Lemma no_hash s : has "#" s = false -> contains "# " s = false.
Proof. intros H. destruct (contains "# " s) eqn:C; [|reflexivity]. apply (contains_has "#") in C; [congruence|reflexivity]. Qed.
Lemma clean_of d : calm_dict d -> clean_dict d.
Proof. apply Forall_impl. intros p (A & B & _). auto. Qed.
Lemma dict_line w pre d : w <> "" -> has "'" w = false -> has "'" pre = false -> calm_dict d -> contains w (pre ++ "{}") = false -> contains w (pre ++ "{") = false -> Forall (fun s => contains w s = false) [": "; ", "; "}"] ->
  (forall s, calm s -> contains w s = false) -> contains w (pre ++ dict_text d) = false.
Proof.
  intros W Q P C H0 H1 HF HC. apply dict_contains; try assumption; [apply clean_of; exact C|]. revert C. apply Forall_impl. intros p (_ & _ & A & B). auto.
Qed.
Ltac dline := apply dict_line; [discriminate|reflexivity|reflexivity|assumption|reflexivity|reflexivity|repeat constructor|].
Lemma hash_free pre d : calm_dict d -> has "'" pre = false -> contains "# " (pre ++ "{}") = false -> contains "# " (pre ++ "{") = false -> contains "# " (pre ++ dict_text d) = false.
Proof. intros C P H0 H1. apply dict_line; try assumption; [discriminate|reflexivity|repeat constructor|]. intros s (_ & H & _). apply no_hash. exact H. Qed.

Definition first_line (time : string) : string := "### NeutronPy ::: " ++ time ++ " ###".
Lemma remove_step w c s : prefix w (String c s) = false -> remove w (String c s) = String c (remove w s).
Proof. intros H. unfold remove. cbn [remove_from]. rewrite H. reflexivity. Qed.
Lemma contains_first c w a b : has c a = false -> contains (String c w) (a ++ b) = contains (String c w) b.
Proof.
  induction a as [|d a IH]; intros H; [reflexivity|]. cbn [has] in H. apply orb_false_iff in H. destruct H as (H1 & H2). cbn [append contains]. rewrite (IH H2).
  assert (P : prefix (String c w) (String d (a ++ b)) = false) by (cbn [prefix]; destruct (ascii_dec c d); [apply Ascii.eqb_neq in H1; contradiction|reflexivity]). rewrite P. reflexivity.
Qed.
Lemma first_clean time : calm time -> remove "# " (first_line time) = "##NeutronPy ::: " ++ time ++ " ###".
Proof.
  intros (_ & H & _). unfold first_line. change ("### NeutronPy ::: " ++ time ++ " ###") with (String "#" (String "#" ("# " ++ "NeutronPy ::: " ++ time ++ " ###"))).
  rewrite remove_step by reflexivity. rewrite remove_step by reflexivity. rewrite remove_prefix. rewrite remove_none; [reflexivity|].
  rewrite contains_first by reflexivity. rewrite contains_first by exact H. reflexivity.
Qed.
Lemma first_without w pre time : w <> "" -> has " " w = false -> contains w pre = false -> contains w ":::" = false -> contains w "###" = false -> contains w time = false -> contains w (pre ++ " ::: " ++ time ++ " ###") = false.
Proof.
  intros W S1 P C H T. change (" ::: " ++ time ++ " ###") with (String " " (":::" ++ String " " (time ++ String " " "###"))). rewrite !contains_sep by assumption. rewrite P, C, H, T. reflexivity.
Qed.
Lemma quiet_first time : calm time -> quiet ("##NeutronPy ::: " ++ time ++ " ###").
Proof. intros (_ & _ & (A & B & C) & _). repeat split; apply (first_without _ "##NeutronPy"); (discriminate || reflexivity || assumption). Qed.
Lemma quiet_tab h : quiet h -> quiet (String tab h).
Proof. intros (A & B & C). repeat split; change (String tab h) with ("" ++ String tab h); rewrite contains_sep by (discriminate || reflexivity); (rewrite A || rewrite B || rewrite C); reflexivity. Qed.
Lemma remove_tab h : remove "# " (String tab h) = String tab (remove "# " h). Proof. apply remove_step. reflexivity. Qed.

(** The header, as it is read. *)
Definition old_lines (D : dset) : list string := match header D with Some (h :: r) => h :: r | _ => [""] end.
Definition head_part (time : string) (D : dset) : list string :=
  List.app ["##NeutronPy ::: " ++ time ++ " ###"; ""; "data_keys = " ++ dict_text (dks D)] (List.app (match qks D with Some q => ["Q_keys = " ++ dict_text q] | None => [] end) [""; ""; "original_header = "]).
Definition nice (time : string) (D : dset) : Prop :=
  calm time /\ calm_dict (dks D) /\ (forall q, qks D = Some q -> calm_dict q) /\ (forall h, In h (match header D with Some l => l | None => [] end) -> calm_line h).
Lemma old_calm time D : nice time D -> Forall calm_line (old_lines D).
Proof. intros (_ & _ & _ & H). unfold old_lines. destruct (header D) as [[|h r]|]; rewrite Forall_forall; [intros x [<-|[]]; repeat split|exact H|intros x [<-|[]]; repeat split]. Qed.
Lemma scan_saved time D names : nice time D -> Forall (fun w => no_space w = true /\ w <> "") names ->
  scan_header (map (append "# ") (header_lines time D names)) = Ok (List.app (head_part time D) (List.app (map (fun h => String tab (remove "# " h)) (old_lines D)) [""; ""]), Some names).
Proof.
  intros HN HW. assert (HN' := HN). destruct HN' as (HT & HD & HQ & HH). unfold header_lines. fold (old_lines D).
  set (ls := List.app ["### NeutronPy ::: " ++ time ++ " ###"; ""; "data_keys = " ++ dict_text (dks D)] (List.app (match qks D with Some q => ["Q_keys = " ++ dict_text q] | None => [] end) (List.app [""; ""; "original_header = "] (List.app (map (String tab) (old_lines D)) [""; ""])))).
  assert (E : map (append "# ") (List.app ["### NeutronPy ::: " ++ time ++ " ###"; ""; "data_keys = " ++ dict_text (dks D)] (List.app (match qks D with Some q => ["Q_keys = " ++ dict_text q] | None => [] end) (List.app [""; ""; "original_header = "] (List.app (map (String tab) (old_lines D)) [""; ""; "npy_col_headers ="; join (String tab "") names]))))
    = List.app (map (append "# ") ls) ["# npy_col_headers ="; "# " ++ join (String tab "") names]).
  { unfold ls. rewrite !map_app. rewrite <- !List.app_assoc. reflexivity. }
  rewrite E. rewrite scan_app.
  - assert (W : scan_header ["# npy_col_headers ="; "# " ++ join (String tab "") names] = Ok ([], Some names)).
    { change (scan_header ["# npy_col_headers ="; "# " ++ join (String tab "") names]) with (Ok (@nil string, Some (tl (words ("# " ++ join (String tab "") names))))). 
      change (words ("# " ++ join (String tab "") names)) with ("#" :: words (join (String tab "") names)). rewrite words_join by (reflexivity || assumption). reflexivity. }
    rewrite W. cbn [bind]. rewrite List.app_nil_r. do 2 f_equal. rewrite map_map.
    assert (R : forall x, remove "# " ("# " ++ x) = remove "# " x) by (intros x; apply remove_prefix).
    rewrite (map_ext _ (remove "# ")) by exact R. unfold ls, head_part. rewrite !map_app, <- !List.app_assoc.
    assert (P1 : map (remove "# ") ["### NeutronPy ::: " ++ time ++ " ###"; ""; "data_keys = " ++ dict_text (dks D)] = ["##NeutronPy ::: " ++ time ++ " ###"; ""; "data_keys = " ++ dict_text (dks D)]).
    { cbn [map]. fold (first_line time). rewrite first_clean by exact HT. f_equal. f_equal. f_equal. apply remove_none. apply hash_free; (assumption || reflexivity). }
    assert (P2 : map (remove "# ") (match qks D with Some q => ["Q_keys = " ++ dict_text q] | None => [] end) = match qks D with Some q => ["Q_keys = " ++ dict_text q] | None => [] end).
    { destruct (qks D) as [q|]; [|reflexivity]. cbn [map]. f_equal. apply remove_none. apply hash_free; [apply HQ; reflexivity|reflexivity|reflexivity|reflexivity]. }
    assert (P3 : map (remove "# ") (map (String tab) (old_lines D)) = map (fun h => String tab (remove "# " h)) (old_lines D)) by (rewrite map_map; apply map_ext; exact remove_tab).
    rewrite P1, P2, P3. reflexivity.
  - rewrite Forall_forall. intros x Hx. apply in_map_iff in Hx. destruct Hx as (l & <- & Hl). split; [|reflexivity].
    change ("# " ++ l) with ("#" ++ String " " l). rewrite contains_sep by (discriminate || reflexivity). change (contains "npy_col_headers" "#") with false. cbn [orb].
    unfold ls in Hl. rewrite !in_app_iff in Hl. destruct Hl as [[<-|[<-|[<-|[]]]]|[Hl|[[<-|[<-|[<-|[]]]]|[Hl|[<-|[<-|[]]]]]]]; try reflexivity.
    + apply (first_without _ "### NeutronPy"); try (discriminate || reflexivity). apply HT.
    + dline. intros s X. apply X.
    + destruct (qks D) as [q|] eqn:Eq; [|contradiction]. destruct Hl as [<-|[]]. specialize (HQ q eq_refl). dline. intros s X. apply X.
    + apply in_map_iff in Hl. destruct Hl as (h & <- & Hh). change (String tab h) with ("" ++ String tab h). rewrite contains_sep by (discriminate || reflexivity). assert (C := old_calm time D HN). rewrite Forall_forall in C. apply (C h Hh).
Qed.
Lemma calm_sub w s : (contains "original_header" w = true \/ contains "Q_keys" w = true \/ contains "data_keys" w = true) -> calm s -> contains w s = false.
Proof.
  intros H (_ & _ & (A & B & C) & _). destruct (contains w s) eqn:E; [|reflexivity]. apply contains_spec in E. destruct E as (a & b & ->). exfalso.
  assert (X : forall v, contains v w = true -> contains v (a ++ w ++ b) = true).
  { intros v Hv. apply contains_spec in Hv. destruct Hv as (x & y & ->). apply contains_spec. exists (a ++ x), (y ++ b). rewrite <- !app_assoc. reflexivity. }
  destruct H as [H|[H|H]]; apply X in H; congruence.
Qed.
Lemma read_saved build time D : nice time D -> forall ol, Forall quiet ol ->
  read_header build 0 (List.app (head_part time D) ol) (None, Some default_qks, default_dks) =
  Ok (Some (List.length (head_part time D)), match qks D with Some q => if build then Some q else Some default_qks | None => Some default_qks end, dks D).
Proof.
  intros (HT & HD & HQ & HH) ol HO. assert (E : forall s q d, read_header build s ol (q, d) = Ok (q, d)).
  { intros s q d. rewrite <- (List.app_nil_r ol). rewrite read_quiet by exact HO. destruct q. reflexivity. }
  unfold head_part. rewrite <- !List.app_assoc. cbn [List.app]. 
  assert (L1 : forall st, read_header build 0 (("##NeutronPy ::: " ++ time ++ " ###") :: "" :: ("data_keys = " ++ dict_text (dks D)) :: List.app (match qks D with Some q => ["Q_keys = " ++ dict_text q] | None => [] end) ("" :: "" :: "original_header = " :: ol)) st
     = read_header build 2 (("data_keys = " ++ dict_text (dks D)) :: List.app (match qks D with Some q => ["Q_keys = " ++ dict_text q] | None => [] end) ("" :: "" :: "original_header = " :: ol)) st).
  { intros st. apply (read_quiet build 0 ["##NeutronPy ::: " ++ time ++ " ###"; ""]). constructor; [apply quiet_first; exact HT|]. repeat constructor. }
  rewrite L1. clear L1.
  assert (D1 : forall st n, read_header build n (("data_keys = " ++ dict_text (dks D)) :: List.app (match qks D with Some q => ["Q_keys = " ++ dict_text q] | None => [] end) ("" :: "" :: "original_header = " :: ol)) st
     = read_header build (n + 1) (List.app (match qks D with Some q => ["Q_keys = " ++ dict_text q] | None => [] end) ("" :: "" :: "original_header = " :: ol)) (fst st, dks D)).
  { intros ((s & q) & d) n. cbn [read_header fst].
    assert (A : contains "original_header" ("data_keys = " ++ dict_text (dks D)) = false) by (dline; intros x X; apply X).
    assert (B : contains "Q_keys" ("data_keys = " ++ dict_text (dks D)) = false) by (dline; intros x X; apply X).
    assert (C : contains "data_keys" ("data_keys = " ++ dict_text (dks D)) = true) by (apply contains_spec; exists "", (" = " ++ dict_text (dks D)); reflexivity).
    rewrite A, B, C, andb_false_r. cbn [bind]. rewrite remove_prefix. rewrite remove_none.
    - rewrite (proj1 (eval_dict_text (dks D) (clean_of _ HD))). reflexivity.
    - apply (dict_line "data_keys = " "" (dks D)); try (discriminate || reflexivity || assumption); [repeat constructor|]. intros x X. apply calm_sub; [right; right; reflexivity|exact X]. }
  rewrite D1. cbn [fst]. clear D1.
  assert (Q1 : forall n s q d, read_header build n (List.app (match qks D with Some q => ["Q_keys = " ++ dict_text q] | None => [] end) ("" :: "" :: "original_header = " :: ol)) (s, q, d)
     = read_header build (n + match qks D with Some _ => 1 | None => 0 end) ("" :: "" :: "original_header = " :: ol) (s, match qks D with Some q' => if build then Some q' else q | None => q end, d)).
  { intros n s q d. destruct (qks D) as [q'|] eqn:Eq; [|cbn [List.app]; f_equal; lia]. specialize (HQ q' eq_refl). cbn [List.app read_header].
    assert (A : contains "original_header" ("Q_keys = " ++ dict_text q') = false) by (dline; intros x X; apply X).
    assert (B : contains "data_keys" ("Q_keys = " ++ dict_text q') = false) by (dline; intros x X; apply X).
    assert (C : contains "Q_keys" ("Q_keys = " ++ dict_text q') = true) by (apply contains_spec; exists "", (" = " ++ dict_text q'); reflexivity).
    rewrite A, B, C, andb_true_r. destruct build; [|reflexivity]. change ("Q_keys = " ++ dict_text q') with ("Q_keys =" ++ (" " ++ dict_text q')). rewrite remove_prefix. rewrite remove_none.
    - rewrite (proj2 (eval_dict_text q' (clean_of _ HQ))). reflexivity.
    - apply (dict_line "Q_keys =" " " q'); try (discriminate || reflexivity || assumption); [repeat constructor|]. intros x X. apply calm_sub; [right; left; reflexivity|exact X]. }
  rewrite Q1. clear Q1.
  change ("" :: "" :: "original_header = " :: ol) with (List.app [""; ""] ("original_header = " :: ol)). rewrite (read_quiet build _ [""; ""]) by repeat constructor. cbn [List.length].
  destruct (qks D) as [q|]; cbn [read_header]; change (contains "original_header" "original_header = ") with true; change (contains "Q_keys" "original_header = ") with false; change (contains "data_keys" "original_header = ") with false; rewrite andb_false_r; cbn [bind]; rewrite E; reflexivity.
Qed.

(** ** C69 *)
(** The columns in the file: those of the dataset, with the errors, if any, under the name "error". *)
Definition saved_cols (D : dset) : list (string * cell) := match uerr D with ErrVal e => put_col "error" (Col e) (cols D) | _ => cols D end.
(** A dataset with [m] points: columns of that length with different names without blanks, and errors of that length, if any. *)
Definition points (m : nat) (D : dset) : Prop :=
  NoDup (map fst (cols D)) /\ Forall (fun p => no_space (fst p) = true /\ fst p <> "" /\ exists l, snd p = Col l /\ List.length l = m) (cols D) /\
  match uerr D with NoErr => True | ErrNone => False | ErrVal e => List.length e = m end.
Lemma saved_points m D : points m D -> NoDup (map fst (saved_cols D)) /\ Forall (fun p => no_space (fst p) = true /\ fst p <> "" /\ exists l, snd p = Col l /\ List.length l = m) (saved_cols D).
Proof.
  intros (N & F & E). unfold saved_cols. destruct (uerr D) as [| |e]; try (split; assumption). split.
  - destruct (put_names "error" (Col e) (cols D)) as (A & B). destruct (in_dec string_dec "error" (map fst (cols D))) as [I|I]; [rewrite (A I); exact N|rewrite (B I)]. apply NoDup_rev in N. apply NoDup_rev in N. rewrite List.rev_involutive in N.
    clear -N I. induction (map fst (cols D)) as [|x l IH]; [constructor; [intros []|constructor]|]. cbn [List.app]. inversion N; subst. constructor; [|apply IH; [assumption|intros C; apply I; right; exact C]]. rewrite in_app_iff. intros [C|[<-|[]]]; [contradiction|]. apply I. left. reflexivity.
  - rewrite Forall_forall in *. intros p Hp. apply put_in in Hp. destruct Hp as [->|Hp]; [|apply F; exact Hp]. cbn. split; [reflexivity|]. split; [discriminate|]. eauto.
Qed.
Lemma saved_names D m : points m D -> exists extra, List.app (map fst (cols D)) (match uerr D with NoErr => [] | _ => ["error"] end) = List.app (map fst (saved_cols D)) extra /\ (forall x, In x extra -> x = "error").
Proof.
  intros (_ & _ & E). unfold saved_cols. destruct (uerr D) as [| |e]; [exists []; split; [reflexivity|intros x []]|contradiction|]. destruct (put_names "error" (Col e) (cols D)) as (A & B).
  destruct (in_dec string_dec "error" (map fst (cols D))) as [I|I]; [rewrite (A I); exists ["error"]; split; [reflexivity|intros x [<-|[]]; reflexivity]|rewrite (B I); exists []; split; [rewrite List.app_nil_r; reflexivity|intros x []]].
Qed.
Lemma save_result time name ow D f m : points m D -> (1 <= List.length (saved_cols D))%nat ->
  save_ascii time name ow D f = (mkDset (saved_cols D) (dks D) (qks D) (header D) (uerr D),
    write f (name ++ ".npy") (mkFile (header_lines time D (List.app (map fst (cols D)) (match uerr D with NoErr => [] | _ => ["error"] end))) (rows_of (map (fun p => cell_list (snd p)) (saved_cols D)) m)), Ok tt).
Proof.
  intros P L. destruct (saved_points m D P) as (_ & F). unfold save_ascii.
  assert (E : match uerr D with NoErr => cols D | ErrNone => put_col "error" PyNone (cols D) | ErrVal e => put_col "error" (Col e) (cols D) end = saved_cols D).
  { destruct P as (_ & _ & P). unfold saved_cols. destruct (uerr D); (reflexivity || contradiction). }
  rewrite E. clear E. assert (V : vstack (map snd (saved_cols D)) = Ok (rows_of (map (fun p => cell_list (snd p)) (saved_cols D)) m)).
  { unfold vstack. rewrite map_map. destruct (saved_cols D) as [|(k & c) r]; [cbn in L; lia|]. cbn [map snd]. inversion F as [|? ? (_ & _ & l & Ec & El) F']; subst. cbn [snd] in Ec. subst c. cbn [cell_list].
    assert (X : forallb (fun d => Nat.eqb (List.length d) (List.length l)) (map (fun x => cell_list (snd x)) r) = true).
    { apply forallb_forall. intros d Hd. apply in_map_iff in Hd. destruct Hd as (p & <- & Hp). rewrite Forall_forall in F'. destruct (F' p Hp) as (_ & _ & l' & -> & El'). cbn. apply Nat.eqb_eq. exact El'. }
    rewrite X. reflexivity. }
  rewrite V. assert (N : existsb is_none (map snd (saved_cols D)) = false).
  { destruct (existsb is_none (map snd (saved_cols D))) eqn:X; [|reflexivity]. apply existsb_exists in X. destruct X as (c & Hc & Ec). apply in_map_iff in Hc. destruct Hc as (p & <- & Hp). rewrite Forall_forall in F. destruct (F p Hp) as (_ & _ & l & E & _). rewrite E in Ec. discriminate. }
  rewrite N. reflexivity.
Qed.
Lemma cols_back m D : points m D -> map Col (map (fun p => cell_list (snd p)) (saved_cols D)) = map snd (saved_cols D).
Proof. intros P. destruct (saved_points m D P) as (_ & F). rewrite map_map. apply map_ext_in. intros p Hp. rewrite Forall_forall in F. destruct (F p Hp) as (_ & _ & l & -> & _). reflexivity. Qed.
(** Saving a dataset with at least two points and columns as text and loading the file: the columns come back, with the errors as a column of that name,
    and so do the names of the columns with special meaning.  The errors themselves are not restored.  Every line of the old header gets
    a tab at its start and loses the blanks after hashes; its last line is lost. *)
Theorem C69_roundtrip : forall time name ow D f m build, nice time D -> points m D -> (2 <= m)%nat -> (2 <= List.length (saved_cols D))%nat ->
  let '(D', f', r) := save_ascii time name ow D f in
  r = Ok tt /\ (forall n, n <> name ++ ".npy" -> f' n = f n) /\
  exists E, load build (name ++ ".npy") f' = Ok E /\ cols E = saved_cols D /\ dks E = dks D /\ uerr E = NoErr /\
    (let standard := [("h", "h"); ("k", "k"); ("l", "l"); ("e", "e"); ("temp", "temp")] in qks E = Some (match qks D with Some q => if build then q else standard | None => standard end)) /\
    header E = Some (match header D with Some l => removelast (map (fun h => String tab (remove "# " h)) l) | None => [] end).
Proof.
  intros time name ow D f m build HN HP Hm HL. rewrite (save_result time name ow D f m HP) by lia. split; [reflexivity|]. split.
  - intros n Hn. unfold write. destruct (String.eqb_spec n (name ++ ".npy")); [contradiction|reflexivity].
  - destruct (saved_points m D HP) as (ND & FP). destruct (saved_names D m HP) as (extra & EN & EE). rewrite EN.
    assert (HW : Forall (fun w => no_space w = true /\ w <> "") (List.app (map fst (saved_cols D)) extra)).
    { rewrite Forall_forall. intros w Hw. apply in_app_or in Hw. destruct Hw as [Hw|Hw]; [|apply EE in Hw; subst w; split; [reflexivity|discriminate]]. apply in_map_iff in Hw. destruct Hw as (p & <- & Hp). rewrite Forall_forall in FP. destruct (FP p Hp) as (A & B & _). auto. }
    unfold load, write. rewrite String.eqb_refl.
    assert (C1 : contains "NeutronPy" ("### NeutronPy ::: " ++ time ++ " ###") = true) by (apply contains_spec; exists "### ", (" ::: " ++ time ++ " ###"); reflexivity).
    unfold header_lines at 1. cbn [hlines List.app]. rewrite C1. unfold load_ascii. cbn [hlines body]. rewrite (scan_saved time D _ HN HW). cbn [bind].
    rewrite columns_rows by (try rewrite map_length; try assumption; rewrite Forall_forall; intros c Hc; apply in_map_iff in Hc; destruct Hc as (p & <- & Hp); rewrite Forall_forall in FP; destruct (FP p Hp) as (_ & _ & l & -> & El); exact El).
    cbn [bind]. rewrite (cols_back m D HP). rewrite read_saved; [|exact HN|].
    + cbn [bind]. eexists. split; [reflexivity|]. cbn [cols dks uerr qks header]. split; [|split; [reflexivity|split; [reflexivity|split; [destruct (qks D); [destruct build|]; reflexivity|]]]].
      * rewrite combine_split. apply (fold_put (saved_cols D) []). exact ND.
      * f_equal. set (T := fun h => String tab (remove "# " h)). rewrite !List.app_length, map_length. cbn [List.length].
        replace (List.length (head_part time D) + (List.length (old_lines D) + 2) - 3)%nat with (List.length (head_part time D) + (List.length (old_lines D) - 1))%nat by (unfold old_lines; destruct (header D) as [[|? ?]|]; cbn; lia).
        rewrite firstn_app_2. rewrite skipn_app, skipn_all, Nat.sub_diag. cbn [List.app skipn].
        rewrite firstn_app. rewrite map_length. replace (List.length (old_lines D) - 1 - List.length (old_lines D))%nat with 0%nat by lia. cbn [firstn]. rewrite List.app_nil_r.
        unfold old_lines. destruct (header D) as [[|h r]|]; [reflexivity| |reflexivity]. rewrite removelast_firstn_len, map_length. f_equal. cbn. lia.
    + apply Forall_app. split; [|repeat constructor]. rewrite Forall_forall. intros x Hx. apply in_map_iff in Hx. destruct Hx as (h & <- & Hh). apply quiet_tab. assert (C := old_calm time D HN). rewrite Forall_forall in C. apply (C h Hh).
Qed.
Print Assumptions C69_roundtrip.
(** A dataset with one point comes back with numbers instead of columns, one without points comes back without columns. *)
Theorem C69_one_point : forall time name ow D f build, nice time D -> points 1 D -> (2 <= List.length (saved_cols D))%nat ->
  let '(D', f', r) := save_ascii time name ow D f in
  r = Ok tt /\ exists E, load build (name ++ ".npy") f' = Ok E /\ map fst (cols E) = map fst (saved_cols D) /\
    forall k x, get_col k (saved_cols D) = Some (Col [x]) -> get_col k (cols E) = Some (Scalar x).
Proof.
  intros time name ow D f build HN HP HL. rewrite (save_result time name ow D f 1 HP) by lia. split; [reflexivity|].
  destruct (saved_points 1 D HP) as (ND & FP). destruct (saved_names D 1 HP) as (extra & EN & EE). rewrite EN.
  assert (HW : Forall (fun w => no_space w = true /\ w <> "") (List.app (map fst (saved_cols D)) extra)).
  { rewrite Forall_forall. intros w Hw. apply in_app_or in Hw. destruct Hw as [Hw|Hw]; [|apply EE in Hw; subst w; split; [reflexivity|discriminate]]. apply in_map_iff in Hw. destruct Hw as (p & <- & Hp). rewrite Forall_forall in FP. destruct (FP p Hp) as (A & B & _). auto. }
  unfold load, write. rewrite String.eqb_refl.
  assert (C1 : contains "NeutronPy" ("### NeutronPy ::: " ++ time ++ " ###") = true) by (apply contains_spec; exists "### ", (" ::: " ++ time ++ " ###"); reflexivity).
  unfold header_lines at 1. cbn [hlines List.app]. rewrite C1. unfold load_ascii. cbn [hlines body]. rewrite (scan_saved time D _ HN HW). cbn [bind].
  assert (CR : columns (rows_of (map (fun p => cell_list (snd p)) (saved_cols D)) 1) = Ok (map (fun p => Scalar (nth 0 (cell_list (snd p)) 0%Q)) (saved_cols D))).
  { unfold rows_of. cbn [seq map]. rewrite map_map. unfold columns. destruct (saved_cols D) as [|a [|b r]]; cbn in HL; [lia|lia|]. cbn [map]. rewrite map_map. reflexivity. }
  rewrite CR. cbn [bind]. rewrite read_saved; [|exact HN|].
  - cbn [bind]. eexists. split; [reflexivity|]. cbn [cols].
    assert (EL : fold_left (fun l '(k, c) => put_col k c l) (List.combine (List.app (map fst (saved_cols D)) extra) (map (fun p => Scalar (nth 0 (cell_list (snd p)) 0%Q)) (saved_cols D))) [] = map (fun p => (fst p, Scalar (nth 0 (cell_list (snd p)) 0%Q))) (saved_cols D)).
    { assert (X := combine_split (map (fun p => (fst p, Scalar (nth 0 (cell_list (snd p)) 0%Q))) (saved_cols D)) extra). rewrite !map_map in X. cbn [fst snd] in X. change (map (fun x : string * cell => fst x) (saved_cols D)) with (map fst (saved_cols D)) in X. rewrite X. apply (fold_put _ []). cbn [List.app]. rewrite map_map. cbn [fst]. exact ND. }
    rewrite EL. split; [rewrite map_map; reflexivity|]. intros k x. clear. induction (saved_cols D) as [|(a & c) l IH]; [discriminate|]. cbn [map get_col fst snd]. destruct (String.eqb a k); [|exact IH]. intros E. injection E as ->. reflexivity.
  - apply Forall_app. split; [|repeat constructor]. rewrite Forall_forall. intros y Hy. apply in_map_iff in Hy. destruct Hy as (h & <- & Hh). apply quiet_tab. assert (C := old_calm time D HN). rewrite Forall_forall in C. apply (C h Hh).
Qed.
Print Assumptions C69_one_point.

(** An example: two points with errors, and a header of three lines. *)
Definition ex_set : dset :=
  mkDset [("h", Col [1; 2]); ("e", Col [4; 4]); ("detector", Col [10; 7]); ("monitor", Col [100; 100]); ("time", Col [5; 5])]%Q default_dks (Some default_qks) (Some ["scan = 12"; "def_x = h"; "sample = # 3"]) (ErrVal [3; 2]%Q).
Definition ex_time : string := "2020-01-01T12:00:00.000000".
Lemma default_calm : calm_dict default_dks /\ calm_dict default_qks.
Proof. split; repeat constructor. Qed.
Example C69_example_hyp : nice ex_time ex_set /\ points 2 ex_set.
Proof.
  split.
  - split; [repeat constructor|]. split; [apply default_calm|]. split; [intros q E; injection E as <-; apply default_calm|]. intros h [<-|[<-|[<-|[]]]]; repeat constructor.
  - split; [|split].
    + cbn. repeat constructor; cbn; intuition discriminate.
    + repeat (constructor; [split; [reflexivity|split; [discriminate|eexists; split; reflexivity]]|]). constructor.
    + reflexivity.
Qed.
Example C69_example : let '(_, f', _) := save_ascii ex_time "scan12" false ex_set (fun _ => None) in
  load true "scan12.npy" f' = Ok (mkDset (List.app (cols ex_set) [("error", Col [3; 2]%Q)]) default_dks (Some default_qks) (Some [String tab "scan = 12"; String tab "def_x = h"]) NoErr).
Proof. vm_compute. reflexivity. Qed.
Example C69_one_point_example : let D := mkDset [("h", Col [1%Q]); ("detector", Col [10%Q]); ("monitor", Col [100%Q]); ("time", Col [5%Q])] default_dks (Some default_qks) None NoErr in
  nice ex_time D /\ points 1 D /\ exists E, load true "p.npy" (snd (fst (save_ascii ex_time "p" false D (fun _ => None)))) = Ok E /\ get_col "detector" (cols E) = Some (Scalar 10%Q).
Proof.
  split; [|split].
  - split; [repeat constructor|]. split; [apply default_calm|]. split; [intros q E; injection E as <-; apply default_calm|]. intros h [].
  - split; [|split].
    + cbn. repeat constructor; cbn; intuition discriminate.
    + repeat (constructor; [split; [reflexivity|split; [discriminate|eexists; split; reflexivity]]|]). constructor.
    + exact I.
  - eexists. split; vm_compute; reflexivity.
Qed.

(** Datasets as in the model of combination. *)
Definition role (d : dict) (k : string) : string := match find (fun p => String.eqb (fst p) k) d with Some (_, v) => v | None => "" end.
Definition as_data (m : nat) (D : dset) : data :=
  mkData (mkTable (map fst (cols D)) (rows_of (map (fun p => cell_list (snd p)) (cols D)) m)) (mkDKeys (role (dks D) "detector") (role (dks D) "monitor") (role (dks D) "time")) 0 0 None false.
(** The errors make points different that were the same: two measurements of one point with different errors are combined into one point
    before they are saved, and are two points when they have been loaded from files. *)
Definition one_scan (d e : Q) : dset :=
  mkDset [("h", Col [1; 2]%Q); ("e", Col [4; 4]%Q); ("detector", Col [d; 7%Q]); ("monitor", Col [100; 100]%Q); ("time", Col [5; 5]%Q)] default_dks (Some default_qks) None (ErrVal [e; 2%Q]).
Definition reload (D : dset) : res dset := load true "s.npy" (snd (fst (save_ascii ex_time "s" false D (fun _ => None)))).
(** Datasets of one point that came back with numbers compare equal only if these are equal. *)
Theorem C69_compare_numbers : forall D E k p q, same_data D E = true -> In (k, Scalar p) (cols D) -> get_col k (cols E) = Some (Scalar q) -> (p == q)%Q.
Proof.
  intros D E k p q H I G. unfold same_data in H. apply andb_prop in H. destruct H as [_ H]. rewrite forallb_forall in H. specialize (H _ I). cbn in H. rewrite G in H. apply Qeq_bool_iff, H.
Qed.
Print Assumptions C69_compare_numbers.
Example C69_compare_numbers_example : same_data (mkDset [("h", Scalar 1); ("detector", Scalar 10)]%Q default_dks None None NoErr) (mkDset [("detector", Scalar 10); ("h", Scalar 1)]%Q default_dks None None NoErr) = true.
Proof. reflexivity. Qed.
Theorem C69_merge_refuted : exists A B A' B' t t', nice ex_time A /\ nice ex_time B /\ points 2 A /\ points 2 B /\ reload A = Ok A' /\ reload B = Ok B' /\
  combine_table (as_data 2 A) (as_data 2 B) TolDefault = Ok t /\ List.length (rows t) = 2%nat /\
  combine_table (as_data 2 A') (as_data 2 B') TolDefault = Ok t' /\ List.length (rows t') = 3%nat.
Proof.
  assert (H : forall d e, nice ex_time (one_scan d e) /\ points 2 (one_scan d e)).
  { intros d e. split; [split; [repeat constructor|]; split; [apply default_calm|]; split; [intros q E; injection E as <-; apply default_calm|intros h []]|]. split; [|split].
    - cbn. repeat constructor; cbn; intuition discriminate.
    - repeat (constructor; [split; [reflexivity|split; [discriminate|eexists; split; reflexivity]]|]). constructor.
    - reflexivity. }
  exists (one_scan 10 3), (one_scan 20 4). do 4 eexists. split; [apply H|]. split; [apply H|]. split; [apply H|]. split; [apply H|]. split; [vm_compute; reflexivity|]. split; [vm_compute; reflexivity|]. split; [vm_compute; reflexivity|]. split; [reflexivity|]. split; [vm_compute; reflexivity|]. reflexivity.
Qed.
Print Assumptions C69_merge_refuted.

(** ** C50 *)
(** Saving as text changes the dataset only if it has errors of its own or they have been asked for. *)
Theorem C50_without_errors : forall time name ow D f, uerr D = NoErr -> fst (fst (save_ascii time name ow D f)) = D.
Proof. intros time name ow [c d q h e] f H. cbn in H. subst e. unfold save_ascii. cbn. destruct (vstack (map snd c)); [|reflexivity]. destruct (existsb is_none (map snd c)); reflexivity. Qed.
Print Assumptions C50_without_errors.
(** With errors they become a column, and nothing else changes; the dataset is not equal to a copy made before. *)
Theorem C50_error_column : forall time name ow D f m e, points m D -> uerr D = ErrVal e ->
  let '(D', _, r) := save_ascii time name ow D f in
  r = Ok tt /\ get_col "error" (cols D') = Some (Col e) /\ (forall k, k <> "error" -> get_col k (cols D') = get_col k (cols D)) /\
  dks D' = dks D /\ qks D' = qks D /\ header D' = header D /\ uerr D' = uerr D /\
  (get_col "error" (cols D) = None -> same_data D' D = false /\ same_data D D' = false).
Proof.
  intros time name ow D f m e HP HE. assert (L : (1 <= List.length (saved_cols D))%nat) by (unfold saved_cols; rewrite HE; destruct (cols D) as [|(a & b) r]; cbn; [lia|destruct (String.eqb a "error"); cbn; lia]).
  rewrite (save_result time name ow D f m HP L). cbn [cols dks qks header uerr]. unfold saved_cols. rewrite HE. split; [reflexivity|]. split; [rewrite put_get; reflexivity|]. split; [|repeat split].
  - intros k Hk. rewrite put_get. destruct (String.eqb_spec "error" k); [congruence|reflexivity].
  - assert (N : ~ In "error" (map fst (cols D))) by (intros C; clear - C H; induction (cols D) as [|(a & b) r IH]; [exact C|]; cbn [get_col] in H; destruct (String.eqb_spec a "error"); [discriminate|]; destruct C as [C|C]; [contradiction|auto]).
    unfold same_data. cbn [cols]. rewrite put_fresh by exact N. rewrite List.app_length. cbn [List.length]. replace (Nat.eqb (List.length (cols D) + 1) (List.length (cols D))) with false by (symmetry; apply Nat.eqb_neq; lia). reflexivity.
  - assert (N : ~ In "error" (map fst (cols D))) by (intros C; clear - C H; induction (cols D) as [|(a & b) r IH]; [exact C|]; cbn [get_col] in H; destruct (String.eqb_spec a "error"); [discriminate|]; destruct C as [C|C]; [contradiction|auto]).
    unfold same_data. cbn [cols]. rewrite put_fresh by exact N. rewrite List.app_length. cbn [List.length]. replace (Nat.eqb (List.length (cols D)) (List.length (cols D) + 1)) with false by (symmetry; apply Nat.eqb_neq; lia). reflexivity.
Qed.
Print Assumptions C50_error_column.
Lemma coords_length dk ks r : List.length r = List.length ks -> List.length (coords dk ks r) = List.length (filter (fun k => negb (mem k dk)) ks).
Proof.
  unfold coords. rewrite map_length. revert r. induction ks as [|k ks IH]; intros [|x r] H; try discriminate; [reflexivity|]. cbn [List.combine filter fst]. injection H as H. destruct (negb (mem k dk)); cbn [List.length]; rewrite (IH r H); reflexivity.
Qed.
(** Then it cannot be combined with an unsaved dataset any more.  (With a single coordinate numpy would compare it with both numbers.) *)
Theorem C50_combine : forall time name ow D f m m' e C t, points m D -> points m' C -> (1 <= m)%nat -> (1 <= m')%nat -> uerr D = ErrVal e -> get_col "error" (cols D) = None ->
  map fst (cols C) = map fst (cols D) -> dks C = dks D -> ~ In "error" (dk_list (dk (as_data m D))) ->
  (2 <= List.length (filter (fun k => negb (mem k (dk_list (dk (as_data m D))))) (map fst (cols D))))%nat ->
  let D' := fst (fst (save_ascii time name ow D f)) in
  combine_table (as_data m D') (as_data m' C) t = Err ValueError /\ combine_table (as_data m' C) (as_data m D') t = Err ValueError.
Proof.
  intros time name ow D f m m' e C t HP HC Hm Hm' HE HG HN HK HI _. cbv zeta. assert (L : (1 <= List.length (saved_cols D))%nat) by (unfold saved_cols; rewrite HE; destruct (cols D) as [|(a & b) r]; cbn; [lia|destruct (String.eqb a "error"); cbn; lia]).
  rewrite (save_result time name ow D f m HP L). cbn [fst]. set (D' := mkDset (saved_cols D) (dks D) (qks D) (header D) (uerr D)).
  assert (N : ~ In "error" (map fst (cols D))) by (intros X; clear - X HG; induction (cols D) as [|(a & b) r IH]; [exact X|]; cbn [get_col] in HG; destruct (String.eqb_spec a "error"); [discriminate|]; destruct X as [X|X]; [contradiction|auto]).
  assert (KN : map fst (cols D') = List.app (map fst (cols D)) ["error"]) by (unfold D', saved_cols; cbn [cols]; rewrite HE; apply put_names; exact N).
  set (dl := dk_list (dk (as_data m D))) in *. assert (DL : dk_list (dk (as_data m D')) = dl) by reflexivity. assert (DL' : dk_list (dk (as_data m' C)) = dl) by (unfold dl, as_data, dk_list; cbn; rewrite HK; reflexivity).
  assert (NE : mem "error" dl = false). { destruct (mem "error" dl) eqn:X; [|reflexivity]. exfalso. apply HI. unfold mem in X. apply existsb_exists in X. destruct X as (x & Hx & Ex). apply String.eqb_eq in Ex. subst x. exact Hx. }
  assert (R : forall n E, Forall (fun r => List.length r = List.length (map fst (cols E))) (rows (DataModel.tab (as_data n E)))).
  { intros n E. unfold as_data. cbn [DataModel.tab rows]. assert (X := rows_of_lengths (map (fun p => cell_list (snd p)) (cols E)) n). rewrite map_length in X. rewrite map_length. exact X. }
  assert (NZ : forall n E, (1 <= n)%nat -> exists r rs, rows (DataModel.tab (as_data n E)) = r :: rs) by (intros n E Hn; destruct n as [|n]; [lia|]; unfold as_data, rows_of; cbn; eauto).
  destruct (NZ m D' Hm) as (r1 & rs1 & E1). destruct (NZ m' C Hm') as (r2 & rs2 & E2). assert (R1 := R m D'). rewrite E1 in R1. apply Forall_inv in R1. assert (R2 := R m' C). rewrite E2 in R2. apply Forall_inv in R2.
  assert (LN : List.length (coords dl (map fst (cols D')) r1) = S (List.length (coords dl (map fst (cols C)) r2))).
  { rewrite !coords_length by assumption. rewrite KN, HN, filter_app, List.app_length. cbn [filter]. rewrite NE. cbn. lia. }
  unfold combine_table. rewrite DL, DL', E1, E2. change (keys (DataModel.tab (as_data m D'))) with (map fst (cols D')). change (keys (DataModel.tab (as_data m' C))) with (map fst (cols C)).
  cbn [map comb_loop scan]. unfold close. replace (Nat.eqb _ _) with false by (symmetry; apply Nat.eqb_neq; lia). replace (Nat.eqb (List.length (coords dl (map fst (cols C)) r2)) (List.length (coords dl (map fst (cols D')) r1))) with false by (symmetry; apply Nat.eqb_neq; lia). split; reflexivity.
Qed.
Print Assumptions C50_combine.
Example C50_combine_example : let D := one_scan 10 3 in let C := one_scan 20 4 in
  points 2 D /\ points 2 C /\ get_col "error" (cols D) = None /\ map fst (cols C) = map fst (cols D) /\ (2 <= List.length (filter (fun k => negb (mem k (dk_list (dk (as_data 2 D))))) (map fst (cols D))))%nat /\
  (exists t, combine_table (as_data 2 D) (as_data 2 C) TolDefault = Ok t) /\ combine_table (as_data 2 (fst (fst (save_ascii ex_time "s" false D (fun _ => None))))) (as_data 2 C) TolDefault = Err ValueError.
Proof.
  assert (H : forall d e, points 2 (one_scan d e)).
  { intros d e. split; [|split]; [cbn; repeat constructor; cbn; intuition discriminate| |reflexivity]. repeat (constructor; [split; [reflexivity|split; [discriminate|eexists; split; reflexivity]]|]). constructor. }
  cbv zeta. split; [apply H|]. split; [apply H|]. split; [reflexivity|]. split; [reflexivity|]. split; [vm_compute; auto|]. split; [eexists; vm_compute; reflexivity|vm_compute; reflexivity].
Qed.
(** Asking a dataset without errors for its error makes saving it as text fail, again and again, and puts None in its columns. *)
Theorem C50_read_then_save : forall time name ow D f m, points m D -> (1 <= List.length (cols D))%nat -> uerr D = NoErr -> get_col "error" (cols D) = None ->
  let '(_, _, r0) := save_ascii time name ow D f in
  let '(D', f', r) := save_ascii time name ow (read_error D) f in
  r0 = Ok tt /\ r = Err (if Nat.eqb m 1 then TypeError else ValueError) /\ (m <> 1%nat -> f' = f) /\
  get_col "error" (cols D') = Some PyNone /\ same_data D' D = false /\
  forall time2 name2 ow2 f2, snd (save_ascii time2 name2 ow2 D' f2) = Err (if Nat.eqb m 1 then TypeError else ValueError).
Proof.
  intros time name ow D f m HP HL HE HG. rewrite (save_result time name ow D f m HP) by (unfold saved_cols; rewrite HE; exact HL).
  assert (N : ~ In "error" (map fst (cols D))) by (intros X; clear - X HG; induction (cols D) as [|(a & b) r IH]; [exact X|]; cbn [get_col] in HG; destruct (String.eqb_spec a "error"); [discriminate|]; destruct X as [X|X]; [contradiction|auto]).
  set (c' := List.app (cols D) [("error", PyNone)]). assert (PC : put_col "error" PyNone (cols D) = c') by (apply put_fresh; exact N).
  assert (PC' : put_col "error" PyNone c' = c').
  { unfold c'. clear -N. induction (cols D) as [|(a & b) r IH]; [reflexivity|]. cbn [List.app put_col]. destruct (String.eqb_spec a "error") as [->|]; [exfalso; apply N; left; reflexivity|]. f_equal. apply IH. intros C. apply N. right. exact C. }
  assert (EX : existsb is_none (map snd c') = true) by (unfold c'; rewrite map_app, existsb_app; cbn; rewrite orb_true_r; reflexivity).
  assert (V : vstack (map snd c') = if Nat.eqb m 1 then vstack (map snd c') else Err ValueError).
  { destruct (Nat.eqb_spec m 1) as [|Hm]; [reflexivity|]. destruct HP as (_ & F & _). unfold c'. destruct (cols D) as [|(k & c) r]; [cbn in HL; lia|]. inversion F as [|? ? (_ & _ & l & Ec & El) _]; subst. cbn [snd] in Ec. subst c. unfold vstack. cbn [List.app map snd cell_list].
    rewrite !map_app. cbn [map snd cell_list]. rewrite forallb_app. cbn [forallb List.length]. rewrite andb_true_r. replace (Nat.eqb 1 (List.length l)) with false by (symmetry; apply Nat.eqb_neq; lia). rewrite andb_false_r. reflexivity. }
  assert (V1 : m = 1%nat -> exists rs, vstack (map snd c') = Ok rs).
  { intros ->. destruct HP as (_ & F & _). unfold c'. destruct (cols D) as [|(k & c) r]; [cbn in HL; lia|]. inversion F as [|? ? (_ & _ & l & Ec & El) F']; subst. cbn [snd] in Ec. subst c. unfold vstack. cbn [List.app map snd cell_list].
    assert (X : forallb (fun d => Nat.eqb (List.length d) (List.length l)) (map cell_list (map snd (List.app r [("error", PyNone)]))) = true); [|rewrite X; eauto].
    apply forallb_forall. intros d Hd. apply in_map_iff in Hd. destruct Hd as (c & <- & Hc). apply in_map_iff in Hc. destruct Hc as (p & <- & Hp). apply in_app_or in Hp. destruct Hp as [Hp|[<-|[]]]; [|apply Nat.eqb_eq; cbn; lia]. rewrite Forall_forall in F'. destruct (F' p Hp) as (_ & _ & l' & -> & El'). cbn. apply Nat.eqb_eq. lia. }
  assert (SV : forall t n o q g X h, cols X = cols D \/ cols X = c' -> uerr X = ErrNone -> dks X = q -> qks X = g -> header X = h ->
    exists f'', save_ascii t n o X f = (mkDset c' q g h ErrNone, f'', Err (if Nat.eqb m 1 then TypeError else ValueError)) /\ (m <> 1%nat -> f'' = f)).
  { intros t n o q g X h HX HU <- <- <-. unfold save_ascii. rewrite HU. replace (put_col "error" PyNone (cols X)) with c' by (destruct HX as [->| ->]; symmetry; assumption). destruct (Nat.eqb_spec m 1) as [E|E].
    - destruct (V1 E) as (rs & ->). rewrite EX. eexists. split; [reflexivity|]. intros C. contradiction.
    - rewrite V. eexists. split; [reflexivity|]. reflexivity. }
  destruct (SV time name ow (dks D) (qks D) (read_error D) (header D) (or_introl eq_refl)) as (f' & ES & EF); try reflexivity; [cbn; rewrite HE; reflexivity|]. rewrite ES. cbn [cols].
  split; [reflexivity|]. split; [reflexivity|]. split; [exact EF|]. split; [|split].
  - rewrite <- PC. rewrite put_get. reflexivity.
  - unfold same_data, c'. cbn [cols]. rewrite List.app_length. cbn [List.length]. replace (Nat.eqb (List.length (cols D) + 1) (List.length (cols D))) with false by (symmetry; apply Nat.eqb_neq; lia). reflexivity.
  - intros t2 n2 o2 f2. unfold save_ascii. cbn [uerr cols]. rewrite PC'. destruct (Nat.eqb_spec m 1) as [E|E]; [destruct (V1 E) as (rs & ->); rewrite EX; reflexivity|rewrite V; reflexivity].
Qed.
Print Assumptions C50_read_then_save.
Example C50_read_then_save_example : let D := mkDset (cols (one_scan 10 3)) default_dks (Some default_qks) None NoErr in
  points 2 D /\ uerr D = NoErr /\ snd (save_ascii ex_time "s" true D (fun _ => None)) = Ok tt /\ snd (save_ascii ex_time "s" true (read_error D) (fun _ => None)) = Err ValueError.
Proof.
  cbv zeta. split; [|split; [reflexivity|split; vm_compute; reflexivity]]. split; [|split]; [cbn; repeat constructor; cbn; intuition discriminate| |exact I]. repeat (constructor; [split; [reflexivity|split; [discriminate|eexists; split; reflexivity]]|]). constructor.
Qed.
(** Saving again changes nothing more, and the second file gives the same dataset when loaded; a file of that name is always replaced. *)
Lemma put_twice k c l : put_col k c (put_col k c l) = put_col k c l.
Proof. induction l as [|(a & b) l IH]; cbn [put_col]; [rewrite String.eqb_refl; reflexivity|]. destruct (String.eqb a k) eqn:E; cbn [put_col]; rewrite E; [reflexivity|]. f_equal. exact IH. Qed.
Theorem C50_save_again : forall time name ow D f time2 name2 ow2 f2 m build, nice time D -> nice time2 D -> points m D -> (2 <= m)%nat -> (2 <= List.length (saved_cols D))%nat ->
  let '(D1, f1, _) := save_ascii time name ow D f in
  let '(D2, f3, r2) := save_ascii time2 name2 ow2 D1 f2 in
  r2 = Ok tt /\ D2 = D1 /\ load build (name2 ++ ".npy") f3 = load build (name ++ ".npy") f1.
Proof.
  intros time name ow D f time2 name2 ow2 f2 m build HN HN2 HP Hm HL. set (D1 := mkDset (saved_cols D) (dks D) (qks D) (header D) (uerr D)).
  assert (S1 : saved_cols D1 = saved_cols D) by (unfold D1, saved_cols; cbn [uerr cols]; destruct (uerr D); try reflexivity; apply put_twice).
  assert (P1 : points m D1). { destruct (saved_points m D HP) as (A & B). split; [exact A|]. split; [exact B|]. apply HP. }
  pose proof (C69_roundtrip time name ow D f m build HN HP Hm HL) as R. pose proof (C69_roundtrip time2 name2 ow2 D1 f2 m build HN2 P1 Hm ltac:(rewrite S1; exact HL)) as R2.
  rewrite (save_result time name ow D f m HP) in * by lia. fold D1. rewrite (save_result time2 name2 ow2 D1 f2 m P1) in * by (rewrite S1; lia). rewrite S1 in *. cbn [dks qks header uerr] in *. split; [reflexivity|]. split; [reflexivity|].
  destruct R as (_ & _ & E & L & A1 & A2 & A3 & A4 & A5). destruct R2 as (_ & _ & E' & L' & B1 & B2 & B3 & B4 & B5). cbn [dks qks header uerr D1] in *. rewrite L, L'. f_equal. destruct E, E'. cbn in *. congruence.
Qed.
Print Assumptions C50_save_again.
Theorem C50_always_overwrites : forall time name D f g m, points m D -> (1 <= List.length (saved_cols D))%nat ->
  snd (fst (save_ascii time name false D f)) (name ++ ".npy") = snd (fst (save_ascii time name true D g)) (name ++ ".npy") /\ snd (fst (save_ascii time name false D f)) (name ++ ".npy") <> None.
Proof. intros time name D f g m HP HL. rewrite !(save_result _ _ _ _ _ m HP HL). cbn [fst snd]. unfold write. rewrite String.eqb_refl. split; [reflexivity|discriminate]. Qed.
Print Assumptions C50_always_overwrites.
(** HDF5: a dataset with errors can be saved, but not after it has been saved as text.  An existing file is not written to without overwriting. *)
Lemma create_ok l : forall ns, NoDup (List.app ns (map fst l)) -> Forall (fun p => is_none (snd p) = false) l -> create_all ns l = (List.app ns (map fst l), Ok tt).
Proof.
  induction l as [|(k & c) l IH]; intros ns N F; [rewrite List.app_nil_r; reflexivity|]. inversion F as [|? ? F1 F2]; subst. cbn [map fst snd] in *. cbn [create_all].
  assert (M : mem k ns = false). { destruct (mem k ns) eqn:X; [|reflexivity]. exfalso. unfold mem in X. apply existsb_exists in X. destruct X as (x & Hx & Ex). apply String.eqb_eq in Ex. subst x. apply NoDup_remove_2 in N. apply N. apply in_or_app. left. exact Hx. }
  assert (C : create ns k c = Ok (List.app ns [k])) by (unfold create; rewrite M; destruct c; (reflexivity || discriminate)). rewrite C. rewrite IH; [rewrite <- List.app_assoc; reflexivity|rewrite <- List.app_assoc; exact N|exact F2].
Qed.
Lemma create_dup l k c : forall ns, In k (List.app ns (map fst l)) -> NoDup (List.app ns (map fst l)) -> Forall (fun p => is_none (snd p) = false) l -> is_none c = false -> snd (create_all ns (List.app l [(k, c)])) = Err ValueError.
Proof.
  induction l as [|(k' & c') l IH]; intros ns I N F C.
  - cbn in *. rewrite List.app_nil_r in I. unfold create. assert (M : mem k ns = true) by (unfold mem; apply existsb_exists; exists k; split; [exact I|apply String.eqb_refl]). rewrite M. destruct c; (reflexivity || discriminate).
  - inversion F as [|? ? F1 F2]; subst. cbn [List.app create_all map fst snd] in *.
    assert (M : mem k' ns = false). { destruct (mem k' ns) eqn:X; [|reflexivity]. exfalso. unfold mem in X. apply existsb_exists in X. destruct X as (x & Hx & Ex). apply String.eqb_eq in Ex. subst x. apply NoDup_remove_2 in N. apply N. apply in_or_app. left. exact Hx. }
    assert (E : create ns k' c' = Ok (List.app ns [k'])) by (unfold create; rewrite M; destruct c'; (reflexivity || discriminate)). rewrite E. apply IH; [rewrite <- List.app_assoc; exact I|rewrite <- List.app_assoc; exact N|exact F2|exact C].
Qed.
Lemma nodup_snoc {A} (l : list A) x : NoDup l -> ~ In x l -> NoDup (List.app l [x]).
Proof. intros N H. induction N as [|y l Hy N IH]; [constructor; [intros []|constructor]|]. cbn. constructor; [rewrite in_app_iff; intros [C|[<-|[]]]; [contradiction|apply H; left; reflexivity]|apply IH; intros C; apply H; right; exact C]. Qed.
Theorem C50_hdf5 : forall name D f m e time name2 ow g, points m D -> uerr D = ErrVal e -> get_col "error" (cols D) = None -> ~ In "data_keys" (map fst (cols D)) -> ~ In "Q_keys" (map fst (cols D)) ->
  let D' := fst (fst (save_ascii time name2 ow D g)) in
  snd (save_hdf5 name true D f) = Ok tt /\ (f (name ++ ".h5") = None -> snd (save_hdf5 name false D f) = Ok tt) /\
  snd (save_hdf5 name true D' f) = Err ValueError /\
  (forall l, f (name ++ ".h5") = Some (Some l) -> save_hdf5 name false D f = (f, Err ValueError)).
Proof.
  intros name D f m e time name2 ow g HP HE HG HD HQ. cbv zeta. assert (L : (1 <= List.length (saved_cols D))%nat) by (unfold saved_cols; rewrite HE; destruct (cols D) as [|(a & b) r]; cbn; [lia|destruct (String.eqb a "error"); cbn; lia]).
  rewrite (save_result time name2 ow D g m HP L). cbn [fst].
  assert (N : ~ In "error" (map fst (cols D))) by (intros X; clear - X HG; induction (cols D) as [|(a & b) r IH]; [exact X|]; cbn [get_col] in HG; destruct (String.eqb_spec a "error"); [discriminate|]; destruct X as [X|X]; [contradiction|auto]).
  assert (SC : saved_cols D = List.app (cols D) [("error", Col e)]) by (unfold saved_cols; rewrite HE; apply put_fresh; exact N).
  destruct HP as (ND & FP & _). assert (FN : Forall (fun p => is_none (snd p) = false) (List.app (cols D) [("error", Col e)])).
  { apply Forall_app. split; [|constructor; [reflexivity|constructor]]. revert FP. apply Forall_impl. intros p (_ & _ & l & -> & _). reflexivity. }
  assert (NN : NoDup (List.app (List.app ["data_keys"] (match qks D with Some _ => ["Q_keys"] | None => [] end)) (map fst (List.app (cols D) [("error", Col e)])))).
  { rewrite map_app. cbn [map fst]. assert (X : NoDup (List.app (map fst (cols D)) ["error"])) by (apply nodup_snoc; assumption).
    assert (Y : forall k, k <> "error" -> ~ In k (map fst (cols D)) -> ~ In k (List.app (map fst (cols D)) ["error"])) by (intros k H1 H2 H3; apply in_app_or in H3; destruct H3 as [H3|[H3|[]]]; [contradiction|congruence]).
    destruct (qks D); cbn [List.app]; [constructor; [intros [C|C]; [discriminate|exact (Y "data_keys" ltac:(discriminate) HD C)]|constructor; [exact (Y "Q_keys" ltac:(discriminate) HQ)|exact X]]|constructor; [exact (Y "data_keys" ltac:(discriminate) HD)|exact X]]. }
  assert (OK : create_all (List.app ["data_keys"] (match qks D with Some _ => ["Q_keys"] | None => [] end)) (List.app (cols D) [("error", Col e)]) = (List.app (List.app ["data_keys"] (match qks D with Some _ => ["Q_keys"] | None => [] end)) (map fst (List.app (cols D) [("error", Col e)])), Ok tt)) by (apply create_ok; assumption).
  unfold save_hdf5. cbn [cols qks uerr]. rewrite HE, OK. split; [reflexivity|]. split; [intros ->; reflexivity|]. split; [|intros l ->; reflexivity].
  rewrite SC. pose proof (create_dup (List.app (cols D) [("error", Col e)]) "error" (Col e) (List.app ["data_keys"] (match qks D with Some _ => ["Q_keys"] | None => [] end))) as X.
  destruct (create_all (List.app ["data_keys"] (match qks D with Some _ => ["Q_keys"] | None => [] end)) (List.app (List.app (cols D) [("error", Col e)]) [("error", Col e)])) as (ns & r). cbn [snd] in *. apply X; [|exact NN|exact FN|reflexivity]. apply in_or_app. right. rewrite map_app. apply in_or_app. right. left. reflexivity.
Qed.
Print Assumptions C50_hdf5.
Example C50_hdf5_example : let D := one_scan 10 3 in snd (save_hdf5 "s" true D (fun _ => None)) = Ok tt /\ snd (save_hdf5 "s" true (fst (fst (save_ascii ex_time "t" true D (fun _ => None)))) (fun _ => None)) = Err ValueError.
Proof. split; reflexivity. Qed.

(** C49: the type of a data file, and loading several files. *)
From Coq Require Import String Ascii List Arith Bool QArith Lia.
From Verif Require Import Base DataModel DataSpec CombineProof TextModel TextProof DetectModel.
Import ListNotations.
Local Open Scope string_scope.

Lemma substring_skip s : forall i n, (String.length s <= i + n)%nat -> substring i n s = skip_chars i s.
Proof.
  induction s as [|c s IH]; intros i n H; [destruct i, n; reflexivity|]. destruct i as [|i]; cbn [skip_chars]; [|apply IH; cbn in H; lia]. destruct n as [|n]; [cbn in H; lia|]. cbn [substring]. f_equal. rewrite IH by (cbn in H; lia). destruct s; reflexivity.
Qed.
Lemma last_skip n s : last_chars n s = skip_chars (String.length s - n) s. Proof. apply substring_skip. lia. Qed.
Lemma skip_app a b n : skip_chars (String.length a + n) (a ++ b) = skip_chars n b. Proof. induction a as [|c a IH]; [reflexivity|exact IH]. Qed.
Lemma skip_skip n s : forall m, skip_chars m (skip_chars n s) = skip_chars (n + m) s.
Proof. revert s. induction n as [|n IH]; intros s m; [reflexivity|]. destruct s as [|c s]; [destruct m; reflexivity|]. apply IH. Qed.
Lemma skip_length n s : String.length (skip_chars n s) = (String.length s - n)%nat. Proof. revert s. induction n as [|n IH]; intros [|c s]; try reflexivity. apply IH. Qed.
Lemma last_app n base ext : (n <= String.length ext)%nat -> last_chars n (base ++ ext) = last_chars n ext.
Proof. intros H. rewrite !last_skip, length_app. replace (String.length base + String.length ext - n)%nat with (String.length base + (String.length ext - n))%nat by lia. apply skip_app. Qed.
Lemma last_last m n s : (m <= n)%nat -> last_chars m (last_chars n s) = last_chars m s.
Proof.
  intros H. rewrite !last_skip, skip_length, skip_skip. destruct (Nat.le_gt_cases n (String.length s)) as [L|L]; [f_equal; lia|].
  replace (String.length s - n)%nat with 0%nat by lia. f_equal. lia.
Qed.
Lemma lower_length s : String.length (lower s) = String.length s. Proof. unfold lower. induction s as [|c s IH]; [reflexivity|cbn; f_equal; exact IH]. Qed.
Lemma lower_skip n s : lower (skip_chars n s) = skip_chars n (lower s). Proof. revert s. induction n as [|n IH]; intros [|c s]; try reflexivity. apply IH. Qed.
Lemma lower_last n s : lower (last_chars n s) = last_chars n (lower s). Proof. rewrite !last_skip, lower_skip, lower_length. reflexivity. Qed.
(** The name decides first: whatever is in the file, and whether it exists. *)
Theorem C49_by_name : forall base ext file,
  (lower ext = ".nxs" -> detect_filetype (base ++ ext) file = Ok "grasp") /\
  (lower ext = ".iexy" \/ lower ext = ".spe" \/ lower ext = ".xye" \/ ext = ".xyie" -> detect_filetype (base ++ ext) file = Ok "dcs_mslice") /\
  (lower ext = ".h5" \/ lower ext = ".npy" -> detect_filetype (base ++ ext) file = Ok "neutronpy").
Proof.
  intros base ext file.
  assert (T : forall t n, lower ext = t -> (n <= String.length t)%nat -> lower (last_chars n (base ++ ext)) = last_chars n t).
  { intros t n <- H. rewrite last_app by (rewrite <- (lower_length ext); exact H). apply lower_last. }
  unfold detect_filetype. split; [|split].
  - intros H. rewrite (T ".nxs" 3%nat H) by (cbn; lia). reflexivity.
  - intros [H|[H|[H|H]]].
    + rewrite (T ".iexy" 3%nat H), (T ".iexy" 4%nat H) by (cbn; lia). reflexivity.
    + rewrite (T ".spe" 3%nat H), (T ".spe" 4%nat H) by (cbn; lia). reflexivity.
    + rewrite (T ".xye" 3%nat H), (T ".xye" 4%nat H) by (cbn; lia). reflexivity.
    + assert (H' : lower ext = ".xyie") by (subst ext; reflexivity). rewrite (T ".xyie" 3%nat H'), (T ".xyie" 4%nat H') by (cbn; lia). rewrite H. rewrite (last_app 4 base ".xyie") by (cbn; lia). reflexivity.
  - intros [H|H].
    + rewrite (T ".h5" 3%nat H), (T ".h5" 2%nat H) by (cbn; lia).
      assert (X : forall t, last_chars 2 t <> "h5" -> String.eqb (lower (last_chars 4 (base ++ ext))) t = false).
      { intros t Ht. apply String.eqb_neq. intros C. apply Ht. rewrite <- C. rewrite <- lower_last, last_last by lia. rewrite (T ".h5" 2%nat H) by (cbn; lia). reflexivity. }
      rewrite (X "iexy") by discriminate. assert (Y : String.eqb (last_chars 4 (base ++ ext)) "xyie" = false).
      { apply String.eqb_neq. intros C. specialize (X "xyie" ltac:(discriminate)). rewrite C in X. discriminate. }
      rewrite Y. reflexivity.
    + rewrite (T ".npy" 3%nat H), (T ".npy" 4%nat H), (T ".npy" 2%nat H) by (cbn; lia).
      assert (Y : String.eqb (last_chars 4 (base ++ ext)) "xyie" = false).
      { apply String.eqb_neq. intros C. assert (Z := T ".npy" 4%nat H ltac:(cbn; lia)). rewrite C in Z. discriminate. }
      rewrite Y. reflexivity.
Qed.
Print Assumptions C49_by_name.
Example C49_by_name_example : detect_filetype "d.NXS" None = Ok "grasp" /\ detect_filetype "d.Spe" (Some ["#ICE"]) = Ok "dcs_mslice" /\ detect_filetype "d.npy" None = Ok "neutronpy".
Proof. repeat split; reflexivity. Qed.
(** One of the four endings of DAVE files is recognised in lower case only. *)
Theorem C49_case_refuted : exists name, detect_filetype name (Some ["1 2"]) = Ok "dcs_mslice" /\ detect_filetype (upper name) (Some ["1 2"]) = Err ValueError.
Proof. exists "d.xyie". split; reflexivity. Qed.
Print Assumptions C49_case_refuted.
(** Names that decide nothing. *)
Definition neutral (name : string) : Prop := forall ext, In ext ["nxs"; "iexy"; "spe"; "xye"; "xyie"; "h5"; "npy"] -> forall base e, name = base ++ e -> lower e = ext -> False.
Lemma skip_split n s : (n <= String.length s)%nat -> exists a, s = a ++ skip_chars n s. Proof. revert s. induction n as [|n IH]; intros s H; [exists ""; reflexivity|]. destruct s as [|c s]; [cbn in H; lia|]. destruct (IH s) as (a & E); [cbn in H; lia|]. exists (String c a). cbn [skip_chars append]. f_equal. exact E. Qed.
Lemma neutral_content name file : neutral name -> detect_filetype name file = match file with None => Err OSError | Some ls =>
  if contains "#ICE" (nth 0 ls "") then Ok "ice" else if contains "# scan" (nth 0 ls "") then Ok "spice" else if contains "GRASP" (upper (nth 0 ls "")) then Ok "grasp" else if contains "Filename" (nth 1 ls "") then Ok "icp"
  else if contains "RRR" (nth 0 ls "") || contains "AAA" (nth 0 ls "") || contains "VVV" (nth 0 ls "") then Ok "mad" else if contains "NeutronPy" (nth 0 ls "") then Ok "neutronpy" else Err ValueError end.
Proof.
  intros H. assert (N : forall n ext, In ext ["nxs"; "iexy"; "spe"; "xye"; "xyie"; "h5"; "npy"] -> String.eqb (lower (last_chars n name)) ext = false).
  { intros n ext Hin. apply String.eqb_neq. intros C. destruct (skip_split (String.length name - n) name) as (a & E); [lia|]. rewrite last_skip in C. exact (H ext Hin a _ E C). }
  unfold detect_filetype. rewrite (N 3%nat "nxs") by (cbn; tauto). rewrite (N 4%nat "iexy"), (N 3%nat "spe"), (N 3%nat "xye"), (N 2%nat "h5"), (N 3%nat "npy") by (cbn; tauto).
  assert (X : String.eqb (last_chars 4 name) "xyie" = false).
  { apply String.eqb_neq. intros C. assert (Y := N 4%nat "xyie" ltac:(cbn; tauto)). rewrite C in Y. discriminate. }
  rewrite X. reflexivity.
Qed.
(** Otherwise the type is that of the first sign found in the first two lines, in this order. *)
Definition signs (first second : string) : list (string * Prop) :=
  [("ice", contains "#ICE" first = true); ("spice", contains "# scan" first = true); ("grasp", contains "GRASP" (upper first) = true); ("icp", contains "Filename" second = true);
   ("mad", contains "RRR" first = true \/ contains "AAA" first = true \/ contains "VVV" first = true); ("neutronpy", contains "NeutronPy" first = true)].
Theorem C49_signs : forall name ls, neutral name ->
  (forall before t p after, signs (nth 0 ls "") (nth 1 ls "") = List.app before ((t, p) :: after) -> (forall t' p', In (t', p') before -> ~ p') -> p -> detect_filetype name (Some ls) = Ok t) /\
  ((forall t p, In (t, p) (signs (nth 0 ls "") (nth 1 ls "")) -> ~ p) -> detect_filetype name (Some ls) = Err ValueError) /\
  detect_filetype name None = Err OSError.
Proof.
  intros name ls H. rewrite !neutral_content by exact H. split; [|split; [|reflexivity]].
  - intros before t p after E HB HP. unfold signs in E.
    assert (F : forall b : bool, ~ (b = true) -> b = false) by (intros [|] Hb; [exfalso; apply Hb; reflexivity|reflexivity]).
    destruct before as [|b0 before]; [injection E as <- <- _; rewrite HP; reflexivity|]. injection E as <- E. pose proof (F _ (HB _ _ (or_introl eq_refl))) as F0. rewrite F0.
    destruct before as [|b1 before]; [injection E as <- <- _; rewrite HP; reflexivity|]. injection E as <- E. pose proof (F _ (HB _ _ (or_intror (or_introl eq_refl)))) as F1. rewrite F1.
    destruct before as [|b2 before]; [injection E as <- <- _; rewrite HP; reflexivity|]. injection E as <- E. pose proof (F _ (HB _ _ (or_intror (or_intror (or_introl eq_refl))))) as F2. rewrite F2.
    destruct before as [|b3 before]; [injection E as <- <- _; rewrite HP; reflexivity|]. injection E as <- E. pose proof (F _ (HB _ _ (or_intror (or_intror (or_intror (or_introl eq_refl)))))) as F3. rewrite F3.
    destruct before as [|b4 before]; [injection E as <- <- _; destruct HP as [HP|[HP|HP]]; rewrite HP, ?orb_true_r; reflexivity|]. injection E as <- E. pose proof (HB _ _ (or_intror (or_intror (or_intror (or_intror (or_introl eq_refl)))))) as F4.
    assert (G : contains "RRR" (nth 0 ls "") || contains "AAA" (nth 0 ls "") || contains "VVV" (nth 0 ls "") = false) by (apply F; intros C; apply F4; apply orb_prop in C; destruct C as [C|C]; [apply orb_prop in C; tauto|tauto]). rewrite G.
    destruct before as [|b5 before]; [injection E as <- <- _; rewrite HP; reflexivity|]. injection E as <- E. destruct before; discriminate.
  - intros HB. assert (F : forall b : bool, ~ (b = true) -> b = false) by (intros [|] Hb; [exfalso; apply Hb; reflexivity|reflexivity]). unfold signs in HB. cbn [In] in HB.
    rewrite (F _ (HB "ice" _ (or_introl eq_refl))). rewrite (F _ (HB "spice" _ (or_intror (or_introl eq_refl)))). rewrite (F _ (HB "grasp" _ (or_intror (or_intror (or_introl eq_refl))))). rewrite (F _ (HB "icp" _ (or_intror (or_intror (or_intror (or_introl eq_refl)))))).
    pose proof (HB "mad" _ (or_intror (or_intror (or_intror (or_intror (or_introl eq_refl)))))) as F4. rewrite (F _ (HB "neutronpy" _ (or_intror (or_intror (or_intror (or_intror (or_intror (or_introl eq_refl)))))))).
    assert (G : contains "RRR" (nth 0 ls "") || contains "AAA" (nth 0 ls "") || contains "VVV" (nth 0 ls "") = false) by (apply F; intros C; apply F4; apply orb_prop in C; destruct C as [C|C]; [apply orb_prop in C; tauto|tauto]). rewrite G. reflexivity.
Qed.
Print Assumptions C49_signs.
Example C49_signs_example : detect_filetype "scan.dat" (Some ["# scan = 12"; "# Filename"]) = Ok "spice" /\ detect_filetype "scan.dat" (Some ["'a'"; "  Collection Filename"]) = Ok "icp" /\ detect_filetype "scan.dat" (Some []) = Err ValueError.
Proof. repeat split; reflexivity. Qed.
(** The types found are types that can be loaded. *)
Theorem C49_supported : forall name file t, detect_filetype name file = Ok t -> In t ["dcs_mslice"; "grasp"; "ice"; "icp"; "mad"; "neutronpy"; "spice"].
Proof.
  intros name file t. unfold detect_filetype. destruct file as [ls|]; repeat match goal with |- context [if ?b then _ else _] => destruct b end; intros H; try discriminate; injection H as <-; cbn; tauto.
Qed.
Print Assumptions C49_supported.
(** A file written as text by save_data is recognised under every name that decides nothing.  The time in its first line has digits, signs and the letter T. *)
Definition time_char (c : ascii) : bool := digit c || mem (String c "") ["-"; ":"; "."; "T"; "+"].
Theorem C49_own_files : forall name time rest, neutral name -> allc time_char time = true ->
  detect_filetype name (Some (("# ### NeutronPy ::: " ++ time ++ " ###") :: "# " :: rest)) = Ok "neutronpy".
Proof.
  intros name time rest HN HT. rewrite neutral_content by exact HN. cbn [nth].
  assert (A : forall c, time_char c = false -> has c "# ### NeutronPy ::: " = false -> has c " ###" = false -> has c ("# ### NeutronPy ::: " ++ time ++ " ###") = false).
  { intros c H1 H2 H3. rewrite !has_app, H2, H3, (allc_has _ c _ HT H1). reflexivity. }
  assert (B : forall c w, has c w = true -> time_char c = false -> has c "# ### NeutronPy ::: " = false -> has c " ###" = false -> contains w ("# ### NeutronPy ::: " ++ time ++ " ###") = false).
  { intros c w Hw H1 H2 H3. destruct (contains w ("# ### NeutronPy ::: " ++ time ++ " ###")) eqn:C; [|reflexivity]. apply (contains_has c) in C; [|exact Hw]. rewrite A in C by assumption. discriminate. }
  rewrite (B "I"%char "#ICE"), (B "s"%char "# scan"), (B "R"%char "RRR"), (B "A"%char "AAA"), (B "V"%char "VVV") by reflexivity.
  assert (U : forall a b, upper (a ++ b) = upper a ++ upper b) by (unfold upper; induction a as [|c a IH]; intros b; [reflexivity|cbn [append mapc]; f_equal; apply IH]).
  assert (UT : upper time = time).
  { clear -HT. unfold upper. induction time as [|c s IH]; [reflexivity|]. cbn [allc] in HT. apply andb_prop in HT. destruct HT as (H1 & H2). cbn [mapc]. rewrite (IH H2). f_equal. revert H1. clear. destruct c as [[] [] [] [] [] [] [] []]; vm_compute; intros H; (reflexivity || discriminate). }
  assert (G : contains "GRASP" (upper ("# ### NeutronPy ::: " ++ time ++ " ###")) = false).
  { rewrite !U, UT. destruct (contains "GRASP" _) eqn:C; [|reflexivity]. apply (contains_has "G"%char) in C; [|reflexivity]. rewrite !has_app in C. rewrite (allc_has _ "G"%char _ HT) in C by reflexivity. discriminate. }
  rewrite G. assert (P : contains "NeutronPy" ("# ### NeutronPy ::: " ++ time ++ " ###") = true) by (apply contains_spec; exists "# ### ", (" ::: " ++ time ++ " ###"); reflexivity). rewrite P. reflexivity.
Qed.
Print Assumptions C49_own_files.
Example C49_own_files_example : neutral "my_scan.txt" /\ allc time_char "2020-01-01T12:00:00.000000" = true.
Proof.
  split; [|reflexivity]. intros ext Hin base e E L. assert (LE : String.length e = String.length ext) by (rewrite <- L, lower_length; reflexivity).
  assert (X : lower (last_chars (String.length ext) "my_scan.txt") = ext). { rewrite E, <- LE, last_app by lia. rewrite last_skip, Nat.sub_diag. exact L. }
  repeat (destruct Hin as [<-|Hin]; [vm_compute in X; discriminate X|]). contradiction.
Qed.

(** With "auto" the type of the first file is the type of all. *)
Theorem C49_first_type : forall detect loader f fs t tols, detect f = Ok t -> t <> "auto" ->
  load_data detect loader (f :: fs) "auto" tols = load_data detect loader (f :: fs) t tols.
Proof.
  intros detect loader f fs t tols H N. apply String.eqb_neq in N. unfold load_data. cbn [load_files]. rewrite N, H. cbn [bind String.eqb]. reflexivity.
Qed.
Print Assumptions C49_first_type.
(** So a later file is handed to the loader of the first one's type: if that loader fails, the call fails, whatever type the file has. *)
Theorem C49_mixed : forall detect loader f g fs t tols d e, detect f = Ok t -> In t ["dcs_mslice"; "grasp"; "ice"; "icp"; "mad"; "neutronpy"; "spice"] -> loader t f = Ok d -> loader t g = Err e ->
  load_data detect loader (f :: g :: fs) "auto" tols = Err e.
Proof.
  intros detect loader f g fs t tols d e H HT H1 H2.
  assert (L : lower t = t /\ mem t filetypes = true /\ String.eqb t "auto" = false) by (repeat (destruct HT as [<-|HT]; [repeat split; reflexivity|]); contradiction). destruct L as (L1 & L2 & L3).
  unfold load_data. cbn [load_files]. change (String.eqb "auto" "auto") with true. cbn iota. rewrite H. cbn [bind]. unfold load_one. rewrite L1, L2, H1, L3. cbn [bind]. rewrite L1, L2, H2. destruct e; reflexivity.
Qed.
Print Assumptions C49_mixed.
Example C49_mixed_example : exists detect (loader : string -> string -> res data) d,
  detect "a.ice" = Ok "ice" /\ detect "b.spice" = Ok "spice" /\ loader "ice" "a.ice" = Ok d /\ loader "spice" "b.spice" = Ok d /\ loader "ice" "b.spice" = Err ValueError /\
  load_data detect loader ["a.ice"; "b.spice"] "auto" (TNum (1#2)) = Err ValueError.
Proof.
  set (d := mkData (mkTable ["h"; "detector"; "monitor"; "time"] []) (mkDKeys "detector" "monitor" "time") 0 0 None false).
  exists (fun n => if String.eqb n "a.ice" then Ok "ice" else Ok "spice"), (fun t n => if String.eqb t "ice" && String.eqb n "a.ice" || String.eqb t "spice" && String.eqb n "b.spice" then Ok d else Err ValueError), d. repeat split; reflexivity.
Qed.
(** Type names are read without regard to case, except "auto"; every other name is a KeyError, raised only when the first file is reached. *)
Theorem C49_names : forall detect loader f fs t tols,
  (~ In (lower t) ["dcs_mslice"; "grasp"; "ice"; "icp"; "mad"; "neutronpy"; "spice"] -> t <> "auto" -> load_data detect loader (f :: fs) t tols = Err KeyError) /\
  (In (lower t) ["dcs_mslice"; "grasp"; "ice"; "icp"; "mad"; "neutronpy"; "spice"] -> load_data detect loader (f :: fs) t tols = load_data detect loader (f :: fs) (lower t) tols) /\
  load_data detect loader [] t tols = Err UnboundLocalError.
Proof.
  intros detect loader f fs t tols.
  assert (LL : forall s, lower (lower s) = lower s).
  { clear. unfold lower. induction s as [|c s IH]; [reflexivity|]. cbn [mapc]. rewrite IH. f_equal. destruct c as [[] [] [] [] [] [] [] []]; vm_compute; reflexivity. }
  split; [|split].
  - intros H N. apply String.eqb_neq in N. unfold load_data. cbn [load_files]. rewrite N. cbn [bind]. unfold load_one. destruct (mem (lower t) filetypes) eqn:E; [exfalso; apply H; apply mem_In; exact E|reflexivity].
  - intros H. assert (N : lower t <> "auto") by (intros E; rewrite E in H; cbn in H; repeat destruct H as [H|H]; try discriminate; contradiction).
    assert (N' : t <> "auto") by (intros ->; apply N; reflexivity). apply String.eqb_neq in N. apply String.eqb_neq in N'.
    unfold load_data. generalize tols. generalize (@None data). generalize (f :: fs). clear f fs tols. induction l as [|f fs IH]; intros acc tols; [reflexivity|]. cbn [load_files]. rewrite N, N'. cbn [bind]. unfold load_one. rewrite LL.
    destruct (if mem (lower t) filetypes then _ else _) as [d|e]; [|reflexivity]. cbn [bind]. destruct (match acc with None => Ok d | Some a => _ end) as [a|e]; [|reflexivity]. cbn [bind]. apply IH.
  - reflexivity.
Qed.
Print Assumptions C49_names.
Example C49_names_example : forall detect loader, load_data detect loader ["a"] "Auto" (TNum 0) = Err KeyError /\ In (lower "SPICE") ["dcs_mslice"; "grasp"; "ice"; "icp"; "mad"; "neutronpy"; "spice"].
Proof. intros. split; [reflexivity|cbn; tauto]. Qed.

(** Loading several files loses no counts. *)
Definition total (k : string) (d : data) : Q := match col (DataModel.tab d) k with Some c => Qsum c | None => 0 end.
Lemma total_col k d : In k (keys (DataModel.tab d)) -> exists c, col (DataModel.tab d) k = Some c /\ total k d = Qsum c.
Proof. intros H. unfold total, col. apply mem_In in H. rewrite H. eexists. split; reflexivity. Qed.
Lemma load_files_sums detect loader t (Ht : String.eqb t "auto" = false) (Hm : mem (lower t) filetypes = true) d0 : forall fs ds a tols,
  same_layout a d0 -> Forall2 (fun n d => loader (lower t) n = Ok d) fs ds -> Forall (same_layout d0) ds ->
  (match tols with TNum _ => True | TSeq l => List.length l = ncoords d0 end) ->
  exists d, load_files detect loader fs t tols (Some a) = Ok d /\ keys (DataModel.tab d) = keys (DataModel.tab d0) /\
    forall k, In k (dk_list (dk d0)) -> total k d == total k a + Qsum (map (total k) ds).
Proof.
  induction fs as [|f fs IH]; intros ds a tols HA HF HL HT.
  - inversion HF; subst. exists a. cbn [load_files]. split; [reflexivity|]. split; [apply HA|]. intros k _. cbn. ring.
  - inversion HF as [|? d ? ds' E1 E2]; subst. inversion HL as [|? ? HL1 HL2]; subst. cbn [load_files]. rewrite Ht. cbn [bind]. unfold load_one. rewrite Hm, E1. cbn [bind].
    destruct HA as (((NA & FA) & (N0 & F0) & Ed & Hk & Nd & Hd & Hc) & Ek). destruct HL1 as ((_ & (N1 & F1) & Ed1 & Hk1 & Nd0 & Hd0 & Hc1) & Ek1).
    assert (SL : same_layout a d).
    { split; [|congruence]. split; [split; assumption|]. split; [split; assumption|]. split; [congruence|]. split; [intros k; rewrite Hk; apply Hk1|]. split; [assumption|]. split; assumption. }
    assert (NC : ncoords a = (List.length (keys (DataModel.tab d)) - 3)%nat).
    { unfold ncoords. rewrite NoDup_coords_count by assumption. rewrite <- Ek1, <- Ek. f_equal. }
    assert (NC0 : ncoords d0 = ncoords a) by (unfold ncoords; rewrite Ed, Ek; reflexivity).
    assert (LT : List.length (tol_seq tols d) = ncoords a).
    { destruct tols as [q|l]; cbn [tol_seq]; [rewrite repeat_length; symmetry; exact NC|rewrite HT; exact NC0]. }
    destruct (combine_total a d (TolSeq (tol_seq tols d)) (tol_seq tols d)) as (tb & CT); [apply SL|left; split; [exact LT|reflexivity]|].
    assert (CI : combine_inplace a d (TolSeq (tol_seq tols d)) = Ok (mkData tb (dk a) (m0 a) (t0 a) (err a) (time_norm a))) by (unfold combine_inplace; rewrite CT; reflexivity).
    pose proof (combine_layout _ _ _ _ SL CI) as (K1 & K2 & K3). set (a' := mkData tb (dk a) (m0 a) (t0 a) (err a) (time_norm a)) in *.
    destruct (IH ds' a' (TSeq (tol_seq tols d))) as (r & R1 & R2 & R3); [|exact E2|exact HL2|rewrite LT; congruence|].
    { split; [|rewrite K1; exact Ek]. split; [split; [rewrite K1; exact NA|rewrite K1; exact K3]|]. split; [split; assumption|]. split; [rewrite K2; exact Ed|]. split; [intros k; rewrite K1; apply Hk|].
      split; [rewrite K2; exact Nd|]. split; [rewrite K2, K1; exact Hd|]. unfold ncoords in *. rewrite K1, K2. exact Hc. }
    exists r. rewrite CI. cbn [bind]. split; [exact R1|]. split; [exact R2|]. intros k Hin. rewrite (R3 k Hin). cbn [map Qsum fold_right].
    rewrite <- Ed in Hin. destruct (total_col k a (Hd k Hin)) as (c1 & C1 & T1).
    destruct (total_col k d) as (c2 & C2 & T2); [rewrite <- Ek1, <- Ek; apply Hd; exact Hin|].
    destruct (combine_sums a d (TolSeq (tol_seq tols d)) tb k c1 c2 (conj NA FA) CT Hin C1 C2) as (c & C3 & S3).
    assert (T3 : total k a' = Qsum c) by (unfold total; cbn [a' DataModel.tab]; rewrite C3; reflexivity). rewrite T3, S3, T1, T2. unfold Qsum. ring.
Qed.
Theorem C49_counts : forall detect loader f fs t q d0 ds,
  In (lower t) ["dcs_mslice"; "grasp"; "ice"; "icp"; "mad"; "neutronpy"; "spice"] ->
  loader (lower t) f = Ok d0 -> Forall2 (fun n d => loader (lower t) n = Ok d) fs ds -> Forall (same_layout d0) ds -> same_layout d0 d0 ->
  exists d, load_data detect loader (f :: fs) t (TNum q) = Ok d /\ keys (DataModel.tab d) = keys (DataModel.tab d0) /\
    forall k, In k (dk_list (dk d0)) -> total k d == Qsum (map (total k) (d0 :: ds)).
Proof.
  intros detect loader f fs t q d0 ds Ht E F L L0. assert (Hm : mem (lower t) filetypes = true) by (apply mem_In; exact Ht).
  assert (N : String.eqb t "auto" = false).
  { apply String.eqb_neq. intros ->. cbn in Ht. repeat destruct Ht as [Ht|Ht]; try discriminate; contradiction. }
  unfold load_data. cbn [load_files]. rewrite N. cbn [bind]. unfold load_one. rewrite Hm, E. cbn [bind tol_seq].
  destruct (load_files_sums detect loader t N Hm d0 fs ds d0 (TSeq (repeat q (List.length (keys (DataModel.tab d0)) - 3))) L0 F L) as (d & D1 & D2 & D3).
  { rewrite repeat_length. destruct L0 as (((N0 & F0) & _ & _ & _ & Nd & Hd & _) & _). unfold ncoords. rewrite NoDup_coords_count by assumption. reflexivity. }
  exists d. split; [exact D1|]. split; [exact D2|exact D3].
Qed.
Print Assumptions C49_counts.
Definition ex_file (h c : Q) : data := mkData (mkTable ["h"; "detector"; "monitor"; "time"] [[h; c; 1; 1]]) (mkDKeys "detector" "monitor" "time") 0 0 None false.
Example C49_counts_example : same_layout (ex_file 1 5) (ex_file 2 7) /\
  load_data (fun _ => Err OSError) (fun t n => Ok (if String.eqb n "a" then ex_file 1 5 else ex_file 2 7)) ["a"; "b"] "Ice" (TNum (1#2)) = Ok (mkData (mkTable ["h"; "detector"; "monitor"; "time"] [[1; 5; 1; 1]; [2; 7; 1; 1]]) (mkDKeys "detector" "monitor" "time") 0 0 None false).
Proof.
  split; [|vm_compute; reflexivity].
  assert (NK : NoDup ["h"; "detector"; "monitor"; "time"]) by (repeat constructor; cbn; intuition discriminate).
  split; [|reflexivity]. split; [split; [exact NK|repeat constructor]|]. split; [split; [exact NK|repeat constructor]|]. split; [reflexivity|]. split; [reflexivity|].
  split; [repeat constructor; cbn; intuition discriminate|]. split; [cbn; tauto|vm_compute; lia].
Qed.

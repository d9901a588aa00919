(** C97: which routine reads a file. *)
From Coq Require Import String Ascii List Arith Bool Lia.
From Verif Require Import Base TextModel TextProof DetectModel DetectProps RouteModel.
From Verif Require GridModel.
Import ListNotations.
Local Open Scope string_scope.
Local Open Scope list_scope.

(** What the first two lines of a table say, apart from the name of the file. *)
Inductive says (first : string) (rest : list string) : res routine -> Prop :=
| says_four : List.length (words first) = 4%nat -> says first rest (Ok Iexy)
| says_two : List.length (words first) = 2%nat -> rest = [] -> says first rest (Ok Xyie)
| says_marks : forall second more, List.length (words first) = 2%nat -> rest = second :: more -> contains "###" second = true -> says first rest (Ok Spe)
| says_three : List.length (words first) = 3%nat -> says first rest (Ok Xye)
| says_plain : forall second more, List.length (words first) = 2%nat -> rest = second :: more -> contains "###" second = false -> says first rest (Err OSError)
| says_nothing : ~ In (List.length (words first)) [2; 3; 4]%nat -> says first rest (Err OSError).

Lemma same_case (t ext : string) n : lower ext = t -> ext <> t -> String.length t = S n -> (exists r, t = String "." r) -> String.eqb (last_chars n ext) (last_chars n t) = false.
Proof.
  intros <- N L (r & E). apply String.eqb_neq. intros C. apply N. rewrite lower_length in L. destruct ext as [|c ext]; [discriminate|]. cbn [String.length] in L. injection L as L.
  unfold lower in *. cbn [mapc] in *. injection E as Ec Er.
  assert (S1 : forall d s, String.length s = n -> last_chars n (String d s) = s). { intros d s Ls. rewrite last_skip. cbn [String.length]. rewrite Ls. replace (S n - n)%nat with 1%nat by lia. reflexivity. }
  rewrite (S1 c ext L) in C. rewrite (S1 (lower_ascii c) (mapc lower_ascii ext)) in C by (rewrite <- L; apply (lower_length ext)). f_equal; [|exact C].
  rewrite Ec. clear -Ec. destruct c as [[] [] [] [] [] [] [] []]; vm_compute in Ec; try discriminate; reflexivity.
Qed.

Lemma subtype_name name ls : GridModel.subtype name ls =
  let n := List.length (words (nth 0 ls "")) in
  if String.eqb (last_chars 4 name) "iexy" || Nat.eqb n 4 then Ok "iexy"
  else if String.eqb (last_chars 4 name) "xyie" || (Nat.eqb n 2 && Nat.leb (List.length ls) 1) then Ok "xyie"
  else if String.eqb (last_chars 3 name) "spe" || (Nat.eqb n 2 && contains "###" (nth 1 ls "")) then Ok "spe"
  else if String.eqb (last_chars 3 name) "xye" || Nat.eqb n 3 then Ok "xye"
  else Err OSError.
Proof. reflexivity. Qed.
Lemma says_subtype first rest r : says first rest r ->
  (let n := List.length (words first) in
  if Nat.eqb n 4 then Ok Iexy else if Nat.eqb n 2 && Nat.leb (List.length (first :: rest)) 1 then Ok Xyie else if Nat.eqb n 2 && contains "###" (nth 0 rest "") then Ok Spe else if Nat.eqb n 3 then Ok Xye else Err OSError) = r.
Proof.
  intros [H|H ->|s m H -> C|H|s m H -> C|H]; cbv zeta; try (rewrite H; cbn [Nat.eqb andb]); try reflexivity.
  - cbn [List.length Nat.leb nth]. rewrite C. reflexivity.
  - cbn [List.length Nat.leb nth]. rewrite C. reflexivity.
  - destruct (Nat.eqb_spec (List.length (words first)) 4) as [E|_]; [exfalso; apply H; cbn; lia|]. destruct (Nat.eqb_spec (List.length (words first)) 2) as [E|_]; [exfalso; apply H; cbn; lia|]. destruct (Nat.eqb_spec (List.length (words first)) 3) as [E|_]; [exfalso; apply H; cbn; lia|]. reflexivity.
Qed.

(** C97.  Tables by the name of the file, if it ends in small letters, and otherwise by the words of the first line. *)
Theorem C97_tables : forall base ext first rest r, says first rest r ->
  (ext = ".iexy" -> auto (base ++ ext) (Some (first :: rest)) = Ok Iexy) /\
  (ext = ".xyie" -> auto (base ++ ext) (Some (first :: rest)) = Ok (match r with Ok Iexy => Iexy | _ => Xyie end)) /\
  (ext = ".spe" -> auto (base ++ ext) (Some (first :: rest)) = Ok (match r with Ok Iexy => Iexy | Ok Xyie => Xyie | _ => Spe end)) /\
  (ext = ".xye" -> auto (base ++ ext) (Some (first :: rest)) = Ok (match r with Ok Iexy => Iexy | Ok Xyie => Xyie | Ok Spe => Spe | _ => Xye end)) /\
  (In (lower ext) [".iexy"; ".spe"; ".xye"] -> ext <> lower ext -> auto (base ++ ext) (Some (first :: rest)) = r).
Proof.
  intros base ext first rest r Hs. apply says_subtype in Hs. cbv zeta in Hs.
  assert (D : forall x, (lower x = ".iexy" \/ lower x = ".spe" \/ lower x = ".xye" \/ x = ".xyie") -> auto (base ++ x) (Some (first :: rest)) = dcs_mslice (base ++ x) (first :: rest)).
  { intros x Hx. destruct (C49_by_name base x (Some (first :: rest))) as (_ & H & _). unfold auto. rewrite (H Hx). reflexivity. }
  assert (L : forall n x, (n <= String.length x)%nat -> last_chars n (base ++ x)%string = last_chars n x) by (intros; apply last_app; assumption).
  split; [|split; [|split; [|split]]].
  - intros ->. rewrite D by auto. unfold dcs_mslice. rewrite subtype_name, !L by (cbn; lia). reflexivity.
  - intros ->. rewrite D by auto. unfold dcs_mslice. rewrite subtype_name, !L by (cbn; lia). cbn [nth]. cbv zeta. rewrite <- Hs.
    destruct (Nat.eqb (List.length (words first)) 4); [reflexivity|]. destruct (Nat.eqb (List.length (words first)) 2 && Nat.leb (List.length (first :: rest)) 1); [reflexivity|]. destruct (Nat.eqb (List.length (words first)) 2 && contains "###" (nth 0 rest "")); [reflexivity|]. destruct (Nat.eqb (List.length (words first)) 3); reflexivity.
  - intros ->. rewrite D by auto. unfold dcs_mslice. rewrite subtype_name, !L by (cbn; lia). cbn [nth]. cbv zeta. rewrite <- Hs.
    destruct (Nat.eqb (List.length (words first)) 4); [reflexivity|]. destruct (Nat.eqb (List.length (words first)) 2 && Nat.leb (List.length (first :: rest)) 1); [reflexivity|]. destruct (Nat.eqb (List.length (words first)) 2 && contains "###" (nth 0 rest "")); [reflexivity|]. destruct (Nat.eqb (List.length (words first)) 3); reflexivity.
  - intros ->. rewrite D by auto. unfold dcs_mslice. rewrite subtype_name, !L by (cbn; lia). cbn [nth]. cbv zeta. rewrite <- Hs.
    destruct (Nat.eqb (List.length (words first)) 4); [reflexivity|]. destruct (Nat.eqb (List.length (words first)) 2 && Nat.leb (List.length (first :: rest)) 1); [reflexivity|]. destruct (Nat.eqb (List.length (words first)) 2 && contains "###" (nth 0 rest "")); [reflexivity|]. destruct (Nat.eqb (List.length (words first)) 3); reflexivity.
  - intros I N.
    assert (Le : (4 <= String.length ext)%nat). { rewrite <- lower_length. destruct I as [<-|[<-|[<-|[]]]]; cbn; lia. }
    assert (F : String.eqb (last_chars 4 ext) "iexy" = false /\ String.eqb (last_chars 4 ext) "xyie" = false /\ String.eqb (last_chars 3 ext) "spe" = false /\ String.eqb (last_chars 3 ext) "xye" = false).
    { assert (G : forall n w, last_chars n (lower ext) <> lower w -> String.eqb (last_chars n ext) w = false). { intros n w H. apply String.eqb_neq. intros C. apply H. rewrite <- lower_last, C. reflexivity. }
      destruct I as [E|[E|[E|[]]]].
      - repeat split; try (apply G; rewrite <- E; discriminate). change "iexy" with (last_chars 4 ".iexy"). apply (same_case ".iexy" ext 4); auto; [congruence|eexists; reflexivity].
      - repeat split; try (apply G; rewrite <- E; discriminate). change "spe" with (last_chars 3 ".spe"). apply (same_case ".spe" ext 3); auto; [congruence|eexists; reflexivity].
      - repeat split; try (apply G; rewrite <- E; discriminate). change "xye" with (last_chars 3 ".xye"). apply (same_case ".xye" ext 3); auto; [congruence|eexists; reflexivity]. }
    destruct F as (F1 & F2 & F3 & F4). rewrite D by (destruct I as [E|[E|[E|[]]]]; rewrite <- E; auto). unfold dcs_mslice. rewrite subtype_name, !L by lia. rewrite F1, F2, F3, F4. cbn [nth orb]. cbv zeta. rewrite <- Hs.
    destruct (Nat.eqb (List.length (words first)) 4); [reflexivity|]. destruct (Nat.eqb (List.length (words first)) 2 && Nat.leb (List.length (first :: rest)) 1); [reflexivity|]. destruct (Nat.eqb (List.length (words first)) 2 && contains "###" (nth 0 rest "")); [reflexivity|]. destruct (Nat.eqb (List.length (words first)) 3); reflexivity.
Qed.
Print Assumptions C97_tables.

(** C97.  The other names that decide: HDF5 files whatever they hold; the text format of the library only with its mark in the first line. *)
Theorem C97_names : forall base ext file,
  (lower ext = ".nxs" -> auto (base ++ ext) (Some file) = Ok GraspNxs) /\
  (lower ext = ".h5" -> auto (base ++ ext) (Some file) = Ok NpyHdf5) /\
  (lower ext = ".npy" -> auto (base ++ ext) (Some file) = if contains "NeutronPy" (nth 0 file "") then Ok NpyAscii else Err OSError).
Proof.
  intros base ext file. destruct (C49_by_name base ext (Some file)) as (A & _ & C). unfold auto.
  assert (T : forall t n, lower ext = t -> (n <= String.length t)%nat -> lower (last_chars n (base ++ ext)) = last_chars n t).
  { intros t n <- H. rewrite last_app by (rewrite <- (lower_length ext); exact H). apply lower_last. }
  split; [|split].
  - intros H. rewrite (A H). cbn [bind]. unfold load_with, grasp. cbn [String.eqb Ascii.eqb Bool.eqb]. rewrite (T ".nxs" 3%nat H) by (cbn; lia). reflexivity.
  - intros H. rewrite (C (or_introl H)). cbn [bind]. unfold load_with, neutronpy. rewrite (T ".h5" 2%nat H) by (cbn; lia). reflexivity.
  - intros H. rewrite (C (or_intror H)). cbn [bind]. unfold load_with, neutronpy. rewrite (T ".npy" 2%nat H) by (cbn; lia). reflexivity.
Qed.
Print Assumptions C97_names.

(** C97.  Names that decide nothing: the routine of the type found, except that a GRASP file whose mark is not in capitals is refused
    unless its name ends in dat; without any sign ValueError. *)
Theorem C97_content : forall name first rest, neutral name ->
  let second := nth 0 rest "" in let r := auto name (Some (first :: rest)) in
  (contains "#ICE" first = true -> r = Ok IceText) /\
  (contains "#ICE" first = false -> contains "# scan" first = true -> r = Ok SpiceText) /\
  (contains "#ICE" first = false -> contains "# scan" first = false -> contains "GRASP" (upper first) = true ->
     (contains "GRASP" first = true \/ lower (last_chars 3 name) = "dat" -> r = Ok GraspDat) /\
     (contains "GRASP" first = false -> lower (last_chars 3 name) <> "dat" -> r = Err OSError)) /\
  (contains "#ICE" first = false -> contains "# scan" first = false -> contains "GRASP" (upper first) = false ->
     (contains "Filename" second = true -> r = Ok IcpText) /\
     (contains "Filename" second = false ->
        (contains "RRR" first = true \/ contains "AAA" first = true \/ contains "VVV" first = true -> r = Ok MadText) /\
        (contains "RRR" first = false -> contains "AAA" first = false -> contains "VVV" first = false ->
           r = if contains "NeutronPy" first then Ok NpyAscii else Err ValueError))).
Proof.
  intros name first rest Hn second r. unfold r, auto. rewrite neutral_content by exact Hn. cbn [nth]. fold second. change (nth 0 rest "") with second.
  assert (N : forall n ext, In ext ["nxs"; "iexy"; "spe"; "xye"; "xyie"; "h5"; "npy"] -> String.eqb (lower (last_chars n name)) ext = false).
  { intros n ext Hin. apply String.eqb_neq. intros C. destruct (skip_split (String.length name - n) name) as (a & E); [lia|]. rewrite last_skip in C. exact (Hn ext Hin a _ E C). }
  split; [intros ->; reflexivity|]. split; [intros -> ->; reflexivity|]. split.
  - intros -> -> ->. cbn [bind]. unfold load_with, grasp. cbn [String.eqb Ascii.eqb Bool.eqb]. rewrite (N 3%nat "nxs") by (cbn; tauto). cbn [nth]. split.
    + intros [E|E]; rewrite E; [rewrite orb_true_r; reflexivity|reflexivity].
    + intros -> E. apply String.eqb_neq in E. rewrite E. reflexivity.
  - intros -> -> ->. split; [intros ->; reflexivity|]. intros ->. split; [intros [E|[E|E]]; rewrite E, ?orb_true_r; reflexivity|]. intros -> -> ->. cbn [orb]. destruct (contains "NeutronPy" first) eqn:E; [|reflexivity].
    cbn [bind]. unfold load_with, neutronpy. cbn [String.eqb Ascii.eqb Bool.eqb]. rewrite (N 2%nat "h5") by (cbn; tauto). cbn [nth]. rewrite E. reflexivity.
Qed.
Print Assumptions C97_content.
(** C97.  A file that is not there is an OSError, whatever its name. *)
Theorem C97_missing : forall name, auto name None = Err OSError.
Proof.
  intros name. unfold auto. destruct (detect_filetype name None) as [t|e] eqn:E.
  - pose proof (C49_supported _ _ _ E) as I. cbn [bind load_with]. assert (M : mem t filetypes = true) by (repeat (destruct I as [<-|I]; [reflexivity|]); contradiction). rewrite M. reflexivity.
  - unfold detect_filetype in E. repeat match goal with E : context [if ?b then _ else _] |- _ => destruct b; try discriminate end. injection E as <-. reflexivity.
Qed.
Print Assumptions C97_missing.
(** C97, the other expectations: a file with the name of one table format is read as that one; a file recognised as GRASP is read. *)
Theorem C97_name_refuted : exists base first rest, auto (base ++ ".xye") (Some (first :: rest)) = Ok Iexy /\ auto (base ++ ".XYE") (Some (first :: rest)) = Ok Iexy /\ exists first', auto (base ++ ".XYE") (Some [first']) = Err OSError /\ auto (base ++ ".xye") (Some [first']) = Ok Xye.
Proof. exists "scan", "# x y e", ["1 2 3"]. split; [reflexivity|]. split; [reflexivity|]. exists "# q (1/A) y dy". split; reflexivity. Qed.
Print Assumptions C97_name_refuted.
Theorem C97_grasp_refuted : exists name first, detect_filetype name (Some [first]) = Ok "grasp" /\ auto name (Some [first]) = Err OSError.
Proof. exists "out.txt", "Exported by Grasp". split; reflexivity. Qed.
Print Assumptions C97_grasp_refuted.
Example C97_tables_case : says "2 3" ["### Phi Grid"] (Ok Spe) /\ auto "run.SPE" (Some ["2 3"; "### Phi Grid"]) = Ok Spe /\ auto "run.spe" (Some ["2 3"]) = Ok Xyie.
Proof. split; [econstructor; reflexivity|]. split; reflexivity. Qed.
Example C97_content_case : neutral "a.txt" /\ auto "a.txt" (Some ["#ICE 1"]) = Ok IceText /\ auto "a.dat" (Some ["grasp"]) = Ok GraspDat.
Proof.
  split; [|split; reflexivity]. intros ext I base e E L. assert (C : last_chars (String.length ext) "a.txt" = e). { rewrite E. rewrite <- L, lower_length, last_app by lia. rewrite last_skip, Nat.sub_diag. reflexivity. }
  cbn in I. repeat (destruct I as [<-|I]; [cbn in C; subst e; discriminate|]). contradiction.
Qed.

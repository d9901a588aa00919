(** Lemmas about data files. *)
From Coq Require Import String Ascii List Arith Bool QArith Lia.
From Verif Require Import Base TextModel TextProof DataFileModel.
Import ListNotations.
Local Open Scope string_scope.

(** ** Text *)
Lemma contains_app_l a b s : contains (a ++ b) s = true -> contains a s = true.
Proof. rewrite !contains_spec. intros (x & y & ->). exists x, (b ++ y). rewrite <- !app_assoc. reflexivity. Qed.
Lemma contains_split c w s : w <> "" -> has c w = false -> contains w s = existsb (contains w) (split c s).
Proof.
  intros W H. destruct (split_join c s) as (E & _). rewrite <- E at 1. clear E. destruct (split_nonempty c s) as (a & r & ->). revert a. induction r as [|b r IH]; intros a; [cbn [join existsb]; rewrite orb_false_r; reflexivity|].
  change (join (String c "") (a :: b :: r)) with (a ++ String c (join (String c "") (b :: r))). rewrite contains_sep by assumption. rewrite IH. reflexivity.
Qed.
Lemma split_cat c a s w r : has c a = false -> split c s = w :: r -> split c (a ++ s) = (a ++ w) :: r.
Proof. induction a as [|d a IH]; intros H E; [exact E|]. cbn [has] in H. apply orb_false_iff in H. destruct H as (H1 & H2). cbn [append split]. rewrite H1. rewrite (IH H2 E). reflexivity. Qed.

Lemma split_here c s : split c (String c s) = "" :: split c s. Proof. cbn [split]. rewrite Ascii.eqb_refl. reflexivity. Qed.
Lemma split_colon s : split "'" (String ":" (String " " (String "'" s))) = ": " :: split "'" s.
Proof. change (String ":" (String " " (String "'" s))) with (": " ++ String "'" s). apply split_at. reflexivity. Qed.
(** The pieces of the text of a dictionary between the quotes. *)
Fixpoint frags (d : dict) : list string := match d with [] => [] | [(k, v)] => [k; ": "; v; "}"] | (k, v) :: r => k :: ": " :: v :: ", " :: frags r end.
Definition clean_dict (d : dict) : Prop := Forall (fun p => has "'" (fst p) = false /\ has "'" (snd p) = false) d.
Lemma split_dict pre d : has "'" pre = false -> clean_dict d -> split "'" (pre ++ dict_text d) = match d with [] => [pre ++ "{}"] | _ => (pre ++ "{") :: frags d end.
Proof.
  intros P H. destruct d as [|(k & v) d].
  - unfold dict_text. cbn [map join]. apply split_none. rewrite has_app, P. reflexivity.
  - unfold dict_text. cut (split "'" (join ", " (map (fun '(k, v) => quote k ++ ": " ++ quote v) ((k, v) :: d)) ++ "}") = "" :: frags ((k, v) :: d)).
    { intros E. rewrite app_assoc. rewrite (split_cat "'" (pre ++ "{") _ "" (frags ((k, v) :: d))); [rewrite app_nil_r; reflexivity|rewrite has_app, P; reflexivity|exact E]. }
    revert k v H. induction d as [|(k' & v') d IH]; intros k v H.
    + inversion H as [|? ? (H1 & H2) _]; subst. cbn [fst snd] in H1, H2. cbn [map join]. unfold quote. rewrite <- !app_assoc. cbn [append]. rewrite split_here. rewrite split_at by exact H1. rewrite split_colon. rewrite split_at by exact H2. reflexivity.
    + inversion H as [|? ? (H1 & H2) H3]; subst. cbn [fst snd] in H1, H2.
      change (join ", " (map (fun '(k, v) => quote k ++ ": " ++ quote v) ((k, v) :: (k', v') :: d))) with ((quote k ++ ": " ++ quote v) ++ ", " ++ join ", " (map (fun '(k, v) => quote k ++ ": " ++ quote v) ((k', v') :: d))).
      specialize (IH k' v' H3). unfold quote at 1 2. rewrite <- !app_assoc. cbn [append]. rewrite split_here. rewrite split_at by exact H1. rewrite split_colon. rewrite split_at by exact H2.
      pose proof (split_cat "'" ", " _ "" (frags ((k', v') :: d)) eq_refl IH) as X. cbn [append] in X. rewrite X. reflexivity.
Qed.
Lemma pairs_frags k v d : pairs (frags ((k, v) :: d)) = Ok ((k, v) :: d).
Proof.
  revert k v. induction d as [|(k' & v') d IH]; intros k v; [reflexivity|]. specialize (IH k' v').
  change (frags ((k, v) :: (k', v') :: d)) with (k :: ": " :: v :: ", " :: frags ((k', v') :: d)). assert (N : exists a r, frags ((k', v') :: d) = a :: r) by (destruct d as [|(? & ?) ?]; eexists; eexists; reflexivity).
  destruct N as (a & r & N). rewrite N in *. change (pairs (k :: ": " :: v :: ", " :: a :: r)) with (bind (pairs (a :: r)) (fun d => Ok ((k, v) :: d))). rewrite IH. reflexivity.
Qed.
Lemma eval_dict_text d : clean_dict d -> eval_dict (dict_text d) = Ok d /\ eval_dict (" " ++ dict_text d) = Ok d.
Proof.
  intros H. assert (L : lstrip (dict_text d) = dict_text d) by reflexivity. assert (L' : lstrip (" " ++ dict_text d) = dict_text d) by reflexivity.
  unfold eval_dict. rewrite L, L'. pose proof (split_dict "" d eq_refl H) as E. cbn [append] in E. rewrite E. destruct d as [|(k & v) d]; [split; reflexivity|]. rewrite pairs_frags. split; reflexivity.
Qed.
(** What a dictionary's line contains. *)
Lemma dict_contains w pre d : w <> "" -> has "'" w = false -> has "'" pre = false -> clean_dict d -> contains w (pre ++ "{}") = false -> contains w (pre ++ "{") = false -> Forall (fun s => contains w s = false) [": "; ", "; "}"] ->
  Forall (fun p => contains w (fst p) = false /\ contains w (snd p) = false) d -> contains w (pre ++ dict_text d) = false.
Proof.
  intros W Q P C H0 H1 HF HD. rewrite (contains_split "'") by assumption. rewrite split_dict by assumption. destruct d as [|(k & v) d]; [cbn [existsb]; rewrite H0; reflexivity|].
  cbn [existsb]. rewrite H1. cbn [orb]. clear C H0 H1 P. inversion HF as [|? ? F1 HF1]; subst. inversion HF1 as [|? ? F2 HF2]; subst. inversion HF2 as [|? ? F3 _]; subst. clear HF HF1 HF2.
  revert k v HD. induction d as [|(k' & v') d IH]; intros k v HD.
  - inversion HD as [|? ? (A & B) _]; subst. cbn [fst snd] in A, B. cbn [frags existsb]. rewrite A, B, F1, F3. reflexivity.
  - inversion HD as [|? ? (A & B) HD']; subst. cbn [fst snd] in A, B. change (frags ((k, v) :: (k', v') :: d)) with (k :: ": " :: v :: ", " :: frags ((k', v') :: d)). cbn [existsb]. cbn [existsb] in IH. rewrite (IH k' v' HD'). rewrite A, B, F1, F2. reflexivity.
Qed.

(** ** Words *)
Lemma words_acc_word w acc s : no_space w = true -> words_acc (w ++ s) acc = words_acc s (acc ++ w).
Proof.
  revert acc. induction w as [|c w IH]; intros acc H; [rewrite app_nil_r; reflexivity|]. cbn [no_space] in H. apply andb_prop in H. destruct H as (H1 & H2). apply negb_true_iff in H1. cbn [append words_acc]. rewrite H1. rewrite IH by exact H2. rewrite <- app_assoc. reflexivity.
Qed.
Lemma words_join c l : space c = true -> Forall (fun w => no_space w = true /\ w <> "") l -> words (join (String c "") l) = l.
Proof.
  intros C. unfold words. induction 1 as [|w l (H1 & H2) HL IH]; [reflexivity|]. destruct l as [|w' l].
  - cbn [join]. rewrite <- (app_nil_r w) at 1. rewrite words_acc_word by exact H1. destruct w; [contradiction|reflexivity].
  - change (join (String c "") (w :: w' :: l)) with (w ++ String c (join (String c "") (w' :: l))). rewrite words_acc_word by exact H1. cbn [append words_acc]. rewrite C. rewrite IH. destruct w; [contradiction|reflexivity].
Qed.

(** ** Reading the header *)
Lemma scan_app ls rest : Forall (fun l => contains "npy_col_headers" l = false /\ has "#" l = true) ls ->
  scan_header (List.app ls rest) = bind (scan_header rest) (fun '(h, c) => Ok (List.app (map (remove "# ") ls) h, c)).
Proof.
  induction 1 as [|l ls (H1 & H2) _ IH].
  - cbn [List.app map]. destruct (scan_header rest) as [(h & c)|e]; reflexivity.
  - cbn [List.app]. assert (E : scan_header (l :: List.app ls rest) = bind (scan_header (List.app ls rest)) (fun '(h, c) => Ok (remove "# " l :: h, c))) by (cbn [scan_header]; rewrite H1, H2; reflexivity).
    rewrite E, IH. destruct (scan_header rest) as [(h & c)|e]; reflexivity.
Qed.
Definition quiet (l : string) : Prop := contains "original_header" l = false /\ contains "Q_keys" l = false /\ contains "data_keys" l = false.
Lemma read_quiet b n ls rest st : Forall quiet ls -> read_header b n (List.app ls rest) st = read_header b (n + List.length ls) rest st.
Proof.
  intros H. revert n. induction H as [|l ls (H1 & H2 & H3) _ IH]; intros n; [cbn; f_equal; lia|].
  destruct st as ((s & q) & d). cbn [List.app read_header List.length]. rewrite H1, H2, H3, andb_false_r. cbn [bind]. rewrite IH. f_equal. lia.
Qed.

(** ** Columns *)
Lemma nth_map_lt {A B} (f : A -> B) l i (d : A) (e : B) : (i < List.length l)%nat -> nth i (map f l) e = f (nth i l d).
Proof. intros H. rewrite (nth_indep _ e (f d)) by (rewrite map_length; exact H). apply map_nth. Qed.
Lemma nth_seq_map {A} (l : list A) d : map (fun i => nth i l d) (seq 0 (List.length l)) = l.
Proof.
  apply (nth_ext _ _ d d); [rewrite map_length, seq_length; reflexivity|]. intros i H. rewrite map_length, seq_length in H.
  rewrite (nth_map_lt (fun i => nth i l d) (seq 0 (List.length l)) i 0%nat d) by (rewrite seq_length; exact H). rewrite seq_nth by exact H. reflexivity.
Qed.
Lemma rows_of_rows l m : Forall (fun c => List.length c = m) l -> rows_of (rows_of l m) (List.length l) = l.
Proof.
  intros H. unfold rows_of. transitivity (map (fun i => nth i l []) (seq 0 (List.length l))); [|apply nth_seq_map]. apply map_ext_in. intros i Hi. apply in_seq in Hi. rewrite map_map.
  assert (L : List.length (nth i l []) = m) by (rewrite Forall_forall in H; apply H, nth_In; lia).
  transitivity (map (fun j => nth j (nth i l []) 0%Q) (seq 0 (List.length (nth i l [])))); [|apply nth_seq_map]. rewrite L. apply map_ext. intros j. rewrite (nth_map_lt (fun c => nth j c 0%Q) l i [] 0%Q) by lia. reflexivity.
Qed.
Lemma rows_of_lengths l m : Forall (fun r => List.length r = List.length l) (rows_of l m).
Proof. unfold rows_of. rewrite Forall_forall. intros r H. apply in_map_iff in H. destruct H as (i & <- & _). apply map_length. Qed.
Lemma columns_rows l m : (2 <= m)%nat -> (2 <= List.length l)%nat -> Forall (fun c => List.length c = m) l -> columns (rows_of l m) = Ok (map Col l).
Proof.
  intros Hm Hl HF. assert (R := rows_of_rows l m HF). assert (W := rows_of_lengths l m). assert (Lr : List.length (rows_of l m) = m) by (unfold rows_of; rewrite map_length, seq_length; reflexivity).
  destruct (rows_of l m) as [|r1 [|r2 rs]] eqn:E; cbn in Lr; [lia|lia|]. inversion W as [|? ? W1 W2]; subst.
  assert (A : forallb (fun s => Nat.eqb (List.length s) (List.length r1)) (r2 :: rs) = true) by (apply forallb_forall; intros s Hs; rewrite Forall_forall in W2; apply Nat.eqb_eq; rewrite (W2 s Hs); congruence).
  assert (B : Nat.eqb (List.length r1) 1 = false) by (apply Nat.eqb_neq; lia).
  unfold columns. rewrite A, B, W1. destruct r1 as [|x [|y r1]]; cbn in W1; [lia|lia|]. rewrite R. reflexivity.
Qed.
Lemma put_fresh k c l : ~ In k (map fst l) -> put_col k c l = List.app l [(k, c)].
Proof.
  induction l as [|(k' & c') l IH]; intros H; [reflexivity|]. cbn [put_col]. destruct (String.eqb_spec k' k) as [->|N]; [exfalso; apply H; left; reflexivity|]. cbn [List.app]. f_equal. apply IH. intros C. apply H. right. exact C.
Qed.
Lemma fold_put L : forall acc, NoDup (map fst (List.app acc L)) -> fold_left (fun l '(k, c) => put_col k c l) L acc = List.app acc L.
Proof.
  induction L as [|(k & c) L IH]; intros acc H; [rewrite List.app_nil_r; reflexivity|]. cbn [fold_left]. rewrite put_fresh.
  - rewrite IH by (rewrite <- List.app_assoc; exact H). rewrite <- List.app_assoc. reflexivity.
  - rewrite map_app in H. cbn [map fst] in H. apply NoDup_remove_2 in H. intros C. apply H. apply in_or_app. left. exact C.
Qed.
Lemma combine_split {A B} (L : list (A * B)) extra : List.combine (List.app (map fst L) extra) (map snd L) = L.
Proof. induction L as [|(a & b) L IH]; [destruct extra; reflexivity|]. cbn. f_equal. exact IH. Qed.
Lemma put_names k c l : (In k (map fst l) -> map fst (put_col k c l) = map fst l) /\ (~ In k (map fst l) -> map fst (put_col k c l) = List.app (map fst l) [k]).
Proof.
  induction l as [|(k' & c') l (IH1 & IH2)]; [split; [intros []|reflexivity]|]. cbn [put_col map fst]. destruct (String.eqb_spec k' k) as [->|N]; cbn [map fst]; split; intros H.
  - reflexivity.
  - exfalso. apply H. left. reflexivity.
  - f_equal. apply IH1. destruct H; [contradiction|assumption].
  - cbn [List.app]. f_equal. apply IH2. intros C. apply H. right. exact C.
Qed.
Lemma put_get k c l k' : get_col k' (put_col k c l) = if String.eqb k k' then Some c else get_col k' l.
Proof.
  induction l as [|(a & d) l IH]; cbn [put_col get_col]; [destruct (String.eqb_spec k k'); reflexivity|]. destruct (String.eqb_spec a k) as [->|N]; cbn [get_col].
  - destruct (String.eqb_spec k k'); reflexivity.
  - destruct (String.eqb_spec a k') as [->|N']; [|exact IH]. destruct (String.eqb_spec k k'); [congruence|reflexivity].
Qed.
Lemma put_in k c l : forall p, In p (put_col k c l) -> p = (k, c) \/ In p l.
Proof. induction l as [|(a & d) l IH]; cbn [put_col]; intros p H; [destruct H as [<-|[]]; auto|]. destruct (String.eqb_spec a k) as [->|N]; destruct H as [<-|H]; auto; [right; right; exact H|right; left; reflexivity|]. destruct (IH p H); [auto|right; right; assumption]. Qed.

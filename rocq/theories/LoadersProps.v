(** C73: reading the files of other programs. *)
From Coq Require Import String Ascii List Arith Bool QArith Lia.
From Verif Require Import Base TextModel LoadersModel.
Import ListNotations.
Local Open Scope string_scope.

(** The texts of the points: the cells of every line that has cells. *)
Definition points (ls : list string) : list (list string) := filter (fun c => negb (Nat.eqb (List.length c) 0)) (map cells ls).
(** What a column of these points is: an array with one number for every point, or the number itself if there is one point only. *)
Definition column (num : string -> option Q) (ps : list (list string)) (j : nat) : col :=
  match ps with [p] => Num (num (nth j p "")) | _ => Arr (map (fun p => num (nth j p "")) ps) end.
(** The same shape, filled with one number. *)
Definition constant (q : Q) (ps : list (list string)) : col := match ps with [_] => Num (Some q) | _ => Arr (map (fun _ => Some q) ps) end.
(** The first [n] names have the columns of the points, and there are no other columns than those in [more]. *)
Definition has_columns (num : string -> option Q) (names : list string) (n : nat) (ps : list (list string)) (more : list string) (d : loaded) : Prop :=
  (forall j x, nth_error names j = Some x -> (j < n)%nat -> get x (cols d) = Some (column num ps j))
  /\ map fst (cols d) = List.app (firstn n names) more.
Definition rectangular (n : nat) (ls : list string) : Prop := forall l, In l ls -> cells l = [] \/ List.length (cells l) = n.

(** *** Lemmas *)
Lemma blank_spec l : blank l = Nat.eqb (List.length (cells l)) 0.
Proof. unfold blank. destruct (cells l); reflexivity. Qed.
Lemma points_cons l r : points (l :: r) = if blank l then points r else cells l :: points r.
Proof. unfold points. simpl. rewrite blank_spec. destruct (Nat.eqb _ 0); reflexivity. Qed.
Lemma points_drop ls : points (drop_blank ls) = points ls.
Proof. induction ls as [|l r IH]; [reflexivity|]. simpl. destruct (blank l) eqn:B; [rewrite points_cons, B; exact IH|reflexivity]. Qed.
Lemma in_drop x ls : In x (drop_blank ls) -> In x ls.
Proof. induction ls as [|l r IH]; [easy|]. simpl. destruct (blank l); [intros H; right; auto|easy]. Qed.
Lemma points_in p ls : In p (points ls) -> exists l, In l ls /\ cells l = p /\ p <> [].
Proof.
  unfold points. intros H. apply filter_In in H. destruct H as [H N]. apply in_map_iff in H. destruct H as [l [E I]].
  exists l. repeat split; auto. intros ->. discriminate N.
Qed.
Lemma points_app a b : points (List.app a b) = List.app (points a) (points b).
Proof. unfold points. rewrite map_app, filter_app. reflexivity. Qed.
Lemma drop_hd ls : points ls <> [] -> blank (hd "" (drop_blank ls)) = false /\ In (hd "" (drop_blank ls)) ls.
Proof.
  induction ls as [|l r IH]; [easy|]. intros N. simpl. destruct (blank l) eqn:B.
  - rewrite points_cons, B in N. destruct (IH N). auto.
  - simpl. auto.
Qed.
Lemma scan_all take ls : forall n, (forall l, In l ls -> blank l = false -> take (cells l) <> None) ->
  scan take n ls = (map (fun c => match take c with Some t => t | None => [] end) (points ls), []).
Proof.
  induction ls as [|l r IH]; intros n H; [reflexivity|]. simpl. rewrite (IH (S n)) by (intros; apply H; [right|]; assumption).
  rewrite points_cons. destruct (blank l) eqn:B; [reflexivity|].
  specialize (H l (or_introl eq_refl) B). simpl. destruct (take (cells l)); [reflexivity|contradiction].
Qed.
Lemma not_blank_nil l : blank l = false -> cells l <> [].
Proof. unfold blank. destruct (cells l); [discriminate|easy]. Qed.
Lemma rect_len n ls l : rectangular n ls -> In l ls -> blank l = false -> List.length (cells l) = n.
Proof. intros R I B. destruct (R l I) as [E|E]; [|exact E]. apply not_blank_nil in B. contradiction. Qed.
Lemma map_id_in {A} (f : A -> A) l : (forall x, In x l -> f x = x) -> map f l = l.
Proof. intros H. rewrite <- (map_id l) at 2. apply map_ext_in. exact H. Qed.
Lemma take_points n ls : rectangular n ls -> map (fun c => match take_all n c with Some t => t | None => [] end) (points ls) = points ls.
Proof.
  intros R. apply map_id_in. intros p I. destruct (points_in _ _ I) as [l [J [E N]]]. unfold take_all.
  destruct (R l J) as [F|F]; [congruence|]. rewrite <- E, F, Nat.eqb_refl. reflexivity.
Qed.
Lemma rows_all n k file : rectangular n (skipn k file) -> points (skipn k file) <> [] -> rows None k 0 file = Ok (points (skipn k file)).
Proof.
  intros R N. unfold rows. set (ls := skipn k file) in *. destruct (drop_hd ls N) as [B I].
  rewrite (rect_len n ls _ R I B).
  rewrite (scan_all (take_all n) (drop_blank ls) 1).
  - cbn [Nat.eqb]. rewrite points_drop, take_points by exact R. rewrite Nat.sub_0_r, firstn_all. reflexivity.
  - intros l J F. unfold take_all. rewrite (rect_len n ls l R (in_drop _ _ J) F), Nat.eqb_refl. discriminate.
Qed.
Lemma rows_first m k file : (0 < m)%nat -> (forall l, In l (skipn k file) -> cells l = [] \/ (m <= List.length (cells l))%nat) ->
  rows (Some m) k 0 file = Ok (map (firstn m) (points (skipn k file))).
Proof.
  intros M R. unfold rows. set (ls := skipn k file) in *.
  rewrite (scan_all (take_first m) (drop_blank ls) 1).
  - cbn [Nat.eqb]. rewrite points_drop, Nat.sub_0_r. rewrite firstn_all. f_equal. apply map_ext_in. intros p I.
    destruct (points_in _ _ I) as [l [J [E N]]]. unfold take_first. destruct (R l J) as [F|F]; [congruence|].
    rewrite E in F. apply Nat.leb_le in F. rewrite F. reflexivity.
  - intros l J F. unfold take_first. destruct (R l (in_drop _ _ J)) as [G|G]; [apply not_blank_nil in F; contradiction|].
    apply Nat.leb_le in G. rewrite G. discriminate.
Qed.
Lemma columns_rect num n ps : (2 <= n)%nat -> ps <> [] -> (forall p, In p ps -> List.length p = n) -> columns num ps = Ok (map (column num ps) (seq 0 n)).
Proof.
  intros N E H. destruct ps as [|p [|q r]]; [contradiction| |].
  - specialize (H p (or_introl eq_refl)). destruct p as [|x [|y t]]; simpl in H; [lia|lia|]. cbn [columns column].
    f_equal. rewrite <- H. change (S (S (List.length t))) with (List.length (x :: y :: t)). clear. generalize (x :: y :: t). intros l.
    apply nth_ext with (d := Num (num "")) (d' := Num (num (nth 0 l ""))).
    + rewrite !map_length, seq_length. reflexivity.
    + intros i I. rewrite map_length in I. rewrite map_nth with (f := fun x => Num (num x)).
      rewrite map_nth with (f := fun j => Num (num (nth j l ""))) (d := 0%nat). rewrite seq_nth by exact I. reflexivity.
  - pose proof (H p (or_introl eq_refl)) as L. unfold columns.
    assert (X : Nat.eqb (List.length p) 1 = false) by (apply Nat.eqb_neq; lia). rewrite X, L.
    destruct p as [|x [|y t]]; reflexivity.
Qed.
Lemma rect_points n ls : rectangular n ls -> forall p, In p (points ls) -> List.length p = n.
Proof. intros R p I. destruct (points_in _ _ I) as [l [J [E N]]]. destruct (R l J); congruence. Qed.

Lemma get_put k c l x : get x (put k c l) = if String.eqb k x then Some c else get x l.
Proof.
  induction l as [|[k' c'] r IH]; [reflexivity|]. cbn [put get]. destruct (String.eqb k' k) eqn:E; cbn [get].
  - apply String.eqb_eq in E. subst k'. destruct (String.eqb k x); reflexivity.
  - rewrite IH. destruct (String.eqb k' x) eqn:F; [|reflexivity]. apply String.eqb_eq in F. subst k'. rewrite String.eqb_sym in E. rewrite E. reflexivity.
Qed.
Lemma put_new k c l : ~ In k (map fst l) -> put k c l = List.app l [(k, c)].
Proof.
  induction l as [|[k' c'] r IH]; intros N; [reflexivity|]. simpl in *. destruct (String.eqb k' k) eqn:E; [apply String.eqb_eq in E; tauto|].
  rewrite IH by tauto. reflexivity.
Qed.
Lemma assign_eq names cs : NoDup names -> assign names cs = List.combine names cs.
Proof.
  unfold assign. assert (G : forall l acc, NoDup (List.app (map fst acc) (map fst l)) -> fold_left (fun a '(k, c) => put k c a) l acc = List.app acc l).
  { induction l as [|[k c] r IH]; intros acc N; [symmetry; apply app_nil_r|]. cbn [fold_left].
    rewrite put_new by (simpl in N; apply NoDup_remove_2 in N; intros I; apply N; apply in_or_app; auto).
    rewrite IH; [rewrite <- app_assoc; reflexivity|]. rewrite map_app, <- app_assoc. exact N. }
  intros N. rewrite G; [reflexivity|]. simpl.
  clear G. revert cs. induction names as [|a r IH]; intros [|c cs]; try constructor.
  - intros I. apply NoDup_cons_iff in N. apply (proj1 N). cbn [List.combine map fst] in I.
    apply in_map_iff in I. destruct I as [[u v] [E I]]. apply in_combine_l in I. simpl in E. subst. exact I.
  - apply IH. apply NoDup_cons_iff in N. apply N.
Qed.
Lemma get_combine (names : list string) (cs : list col) : NoDup names -> forall j x, nth_error names j = Some x -> (j < List.length cs)%nat -> forall d, get x (List.combine names cs) = Some (nth j cs d).
Proof.
  revert cs. induction names as [|a r IH]; intros cs N j x E L d; [destruct j; discriminate|].
  destruct cs as [|c cs]; [simpl in L; lia|]. apply NoDup_cons_iff in N. destruct N as [A N]. destruct j as [|j]; simpl in E, L |- *.
  - injection E as ->. rewrite String.eqb_refl. reflexivity.
  - destruct (String.eqb a x) eqn:F; [apply String.eqb_eq in F; subst; apply nth_error_In in E; contradiction|].
    apply IH; auto. lia.
Qed.
Lemma fst_combine (names : list string) (cs : list col) : map fst (List.combine names cs) = firstn (List.length cs) names.
Proof. revert cs. induction names as [|a r IH]; intros [|c cs]; try reflexivity. simpl. rewrite IH. reflexivity. Qed.
Lemma assign_columns num names ps n : NoDup names -> 
  (forall j x, nth_error names j = Some x -> (j < n)%nat -> get x (assign names (map (column num ps) (seq 0 n))) = Some (column num ps j))
  /\ map fst (assign names (map (column num ps) (seq 0 n))) = firstn n names.
Proof.
  intros N. rewrite assign_eq by exact N. split.
  - intros j x E L. rewrite (get_combine names _ N j x E) with (d := column num ps 0) by (rewrite map_length, seq_length; exact L).
    rewrite map_nth, seq_nth by exact L. reflexivity.
  - rewrite fst_combine, map_length, seq_length. reflexivity.
Qed.
Lemma get_In {A} k (l : list (string * A)) : In k (map fst l) <-> get k l <> None.
Proof.
  induction l as [|[a c] r IH]; [simpl; tauto|]. simpl. destruct (String.eqb a k) eqn:E.
  - apply String.eqb_eq in E. split; [discriminate|auto].
  - apply String.eqb_neq in E. rewrite <- IH. tauto.
Qed.
Lemma find_app p pre l r : (forall x, In x pre -> contains p x = false) -> contains p l = true -> forall n, find_line p n (List.app pre (l :: r)) = Some ((n + List.length pre)%nat, l, r).
Proof.
  intros N C. induction pre as [|x pre IH]; intros n; cbn [List.app find_line List.length].
  - rewrite C, Nat.add_0_r. reflexivity.
  - rewrite (N x (or_introl eq_refl)). rewrite IH by (intros; apply N; right; assumption). rewrite Nat.add_succ_r. reflexivity.
Qed.
Lemma first_names (names : list string) (n : nat) x : In x (firstn n names) -> exists j, nth_error names j = Some x /\ (j < n)%nat.
Proof.
  intros I. apply In_nth_error in I. destruct I as [j E]. exists j.
  assert (L : (j < List.length (firstn n names))%nat) by (apply nth_error_Some; congruence).
  rewrite firstn_length in L. split; [|lia]. rewrite <- E. clear E. revert j n L. induction names as [|a r IH]; intros j [|n] L; simpl in *; try lia.
  destruct j; [reflexivity|]. simpl. apply IH. lia.
Qed.
Lemma in_firstn {A} (l : list A) n x : In x (firstn n l) -> In x l.
Proof. intros I. rewrite <- (firstn_skipn n l). apply in_or_app. auto. Qed.

(** *** ICP *)
(** The first line of the file: texts in quotes, the monitor and prefactor before the third quote from the end ... *)
Definition icp_first (start : list string) (mon typ pts raw rest : string) : string := join "'" (List.app start [mon; typ; pts; raw; rest]).
Lemma split_no c s : has c s = false -> split c s = [s].
Proof.
  induction s as [|d r IH]; [reflexivity|]. cbn [has split]. destruct (Ascii.eqb c d); [discriminate|]. intros H. rewrite (IH H). reflexivity.
Qed.
Lemma split_app c s t : has c s = false -> split c (s ++ String c t) = s :: split c t.
Proof.
  induction s as [|d r IH]; cbn [has append split]; [rewrite Ascii.eqb_refl; reflexivity|].
  destruct (Ascii.eqb c d); [discriminate|]. intros H. rewrite (IH H). reflexivity.
Qed.
Lemma split_join c l : l <> [] -> (forall x, In x l -> has c x = false) -> split c (join (String c "") l) = l.
Proof.
  intros N H. induction l as [|a r IH]; [contradiction|]. destruct r as [|b r].
  - simpl. apply split_no. apply H. left. reflexivity.
  - change (join (String c "") (a :: b :: r)) with (a ++ String c (join (String c "") (b :: r))).
    rewrite split_app by (apply H; left; reflexivity). rewrite IH; [reflexivity|discriminate|intros; apply H; right; assumption].
Qed.
Lemma monitor_ok num start mon typ pts raw rest a b m p : start <> [] -> (forall x, In x (List.app start [mon; typ; pts; raw; rest]) -> has "'" x = false) ->
  words mon = [a; b] -> num a = Some m -> num b = Some p -> int_ok pts = true -> icp_monitor num (icp_first start mon typ pts raw rest) = Ok (m * p)%Q.
Proof.
  intros S H W A B I. unfold icp_monitor, quoted, icp_first. rewrite split_join by (auto; destruct start; discriminate).
  destruct start as [|s0 st]; [contradiction|]. cbn [List.app tl].
  change (List.app st [mon; typ; pts; raw; rest]) with (List.app st (List.app [mon; typ; pts; raw] [rest])).
  rewrite app_assoc, removelast_last. unfold from_end. rewrite app_length. cbn [List.length].
  rewrite (proj2 (Nat.leb_le 2 _)) by lia. rewrite (proj2 (Nat.leb_le 4 _)) by lia.
  rewrite !app_nth2 by lia. replace (List.length st + 4 - 2 - List.length st)%nat with 2%nat by lia.
  replace (List.length st + 4 - 4 - List.length st)%nat with 0%nat by lia. cbn [nth bind]. rewrite I, W.
  cbn [map_res]. unfold float. rewrite A, B. reflexivity.
Qed.

Lemma skipn_in {A} k (l : list A) x : In x (skipn k l) -> In x l.
Proof. intros I. rewrite <- (firstn_skipn k l). apply in_or_app. auto. Qed.
Lemma const_shape q ps num n j : (j < n)%nat -> ps <> [] -> 
  match column num ps j with Arr v => Arr (map (fun _ => Some q) v) | Num _ => Num (Some q) end = constant q ps.
Proof. intros _ N. destruct ps as [|a [|b r]]; [contradiction|reflexivity|]. cbn [column constant]. rewrite map_map. reflexivity. Qed.

(** C73.  An ICP file whose first line has no whole number of points in the place for it is refused. *)
Theorem C73_icp_points : forall num build start mon typ pts raw rest lines, start <> [] -> (forall x, In x (List.app start [mon; typ; pts; raw; rest]) -> has "'" x = false) ->
  (forall d ds sign, In sign [""; "+"; "-"] -> all_digits (String d ds) = true -> strip pts <> sign ++ String d ds) -> load_icp num build (icp_first start mon typ pts raw rest :: lines) = Err ValueError.
Proof.
  intros num build start mon typ pts raw rest lines S H D.
  assert (I : int_ok pts = false).
  { unfold int_ok. set (t := strip pts) in *. destruct (negb (String.eqb (unsigned t) "") && all_digits (unsigned t)) eqn:E; [|reflexivity]. apply andb_prop in E. destruct E as [E1 E2]. exfalso. destruct t as [|c r]; [discriminate|]. cbn [unsigned] in E1, E2. destruct (Ascii.eqb c "+" || Ascii.eqb c "-") eqn:C.
    - destruct r as [|d ds]; [discriminate|]. apply orb_prop in C. destruct C as [C|C]; apply Ascii.eqb_eq in C; subst c; [apply (D d ds "+")|apply (D d ds "-")]; try exact E2; try reflexivity; cbn; tauto.
    - apply (D c r ""); [cbn; tauto|exact E2|reflexivity]. }
  unfold load_icp, icp_monitor, quoted, icp_first. rewrite split_join by (auto; destruct start; discriminate). destruct start as [|s0 st]; [contradiction|]. cbn [List.app tl].
  change (List.app st [mon; typ; pts; raw; rest]) with (List.app st (List.app [mon; typ; pts; raw] [rest])). rewrite app_assoc, removelast_last. unfold from_end. rewrite app_length. cbn [List.length].
  rewrite (proj2 (Nat.leb_le 2 _)) by lia. rewrite !app_nth2 by lia. replace (List.length st + 4 - 2 - List.length st)%nat with 2%nat by lia. cbn [nth bind]. rewrite I. reflexivity.
Qed.
Print Assumptions C73_icp_points.
Example C73_icp_points_case : forall num, load_icp num true [icp_first ["a"] "1. 2" " " "  x" " " " "] = Err ValueError.
Proof.
  intros num. apply C73_icp_points; [discriminate| |].
  - intros x I. repeat (destruct I as [<-|I]; [reflexivity|]). destruct I.
  - intros d ds s I D E. change (strip "  x") with "x" in E. repeat (destruct I as [<-|I]; [cbn in E; try discriminate; injection E as <- <-; discriminate|]). destruct I.
Qed.

Definition icp_Q := [("h", "Q(x)"); ("k", "Q(y)"); ("l", "Q(z)"); ("e", "E"); ("temp", "T-act")].
(** An ICP file: the first line, more lines, the line with the names, the rest.  The points are what follows the twelfth line of the file,
    wherever the names are. *)
Theorem C73_icp : forall num build start mon typ pts raw rest a b m p pre names_line body n,
  start <> [] -> (forall x, In x (List.app start [mon; typ; pts; raw; rest]) -> has "'" x = false) ->
  words mon = [a; b] -> num a = Some m -> num b = Some p -> int_ok pts = true ->
  let first := icp_first start mon typ pts raw rest in
  let file := List.app (first :: pre) (names_line :: body) in
  (forall x, In x (first :: pre) -> contains "Q(x)" x = false) -> contains "Q(x)" names_line = true ->
  let names := words names_line in
  NoDup names -> ~ In "monitor" names ->
  (2 <= n)%nat -> rectangular n (skipn 12 file) -> points (skipn 12 file) <> [] ->
  exists d, load_icp num build file = Ok d
    /\ has_columns num names n (points (skipn 12 file)) ["monitor"] d
    /\ role d "monitor" = Some (constant (m * p) (points (skipn 12 file)))
    /\ role d "detector" = get "Counts" (cols d) /\ role d "time" = get "min" (cols d)
    /\ (build = true -> forall k x, In (k, x) icp_Q -> Q_of d k = get x (cols d))
    /\ header d = None /\ err d = None.
Proof.
  intros num build start mon typ pts raw rest a b m p pre nl body n S H W A B I first file F C names ND NM N2 R NP.
  unfold load_icp, file. rewrite (find_app "Q(x)" (first :: pre) nl body F C 0).
  change (List.app (first :: pre) (nl :: body)) with (first :: List.app pre (nl :: body)). cbn [bind].
  unfold first at 1. rewrite (monitor_ok num start mon typ pts raw rest a b m p) by assumption. cbn [bind].
  change (first :: List.app pre (nl :: body)) with file. unfold genfromtxt. rewrite (rows_all n) by assumption. cbn [bind].
  set (ps := points (skipn 12 file)) in *.
  rewrite (columns_rect num n ps N2 NP (rect_points n _ R)). cbn [bind].
  destruct (assign_columns num names ps n ND) as [G K]. fold names.
  remember (assign names (map (column num ps) (seq 0 n))) as d0 eqn:D0.
  assert (E0 : map (column num ps) (seq 0 n) = column num ps 0 :: map (column num ps) (seq 1 (n - 1))) by (destruct n as [|n]; [lia|]; cbn [seq map]; rewrite Nat.sub_succ, Nat.sub_0_r; reflexivity).
  rewrite E0. cbv iota. rewrite (const_shape (m * p) ps num 1 0) by (auto; lia).
  assert (Q : ~ In "monitor" (map fst d0)) by (rewrite K; intros J; apply NM; apply in_firstn in J; exact J).
  eexists. split; [reflexivity|]. unfold has_columns, role, Q_of. cbn [cols dks qks header err get String.eqb Ascii.eqb Bool.eqb].
  repeat split.
  - intros j x E L. rewrite get_put. destruct (String.eqb "monitor" x) eqn:X; [apply String.eqb_eq in X; subst x; apply nth_error_In in E; contradiction|]. apply G; assumption.
  - rewrite put_new by exact Q. rewrite map_app, K. reflexivity.
  - rewrite get_put, String.eqb_refl. reflexivity.
  - intros -> k x J. cbn [icp_Q In] in J. repeat (destruct J as [J|J]; [injection J as <- <-; reflexivity|]). contradiction.
Qed.
Print Assumptions C73_icp.

(** The names in the twelfth line: the points are all the lines after it.  In an earlier line: the first points are left out.  In the
    thirteenth: the names are read as a point. *)
Lemma after_early (pre : list string) nl body : (List.length pre <= 11)%nat -> skipn 12 (List.app pre (nl :: body)) = skipn (11 - List.length pre) body.
Proof.
  intros L. rewrite skipn_app, (skipn_all2 pre) by lia.
  replace (12 - List.length pre)%nat with (S (11 - List.length pre)) by lia. reflexivity.
Qed.
Lemma after_late (pre : list string) nl body : List.length pre = 12%nat -> skipn 12 (List.app pre (nl :: body)) = nl :: body.
Proof. intros L. rewrite skipn_app, (skipn_all2 pre) by lia. rewrite L. reflexivity. Qed.

Theorem C73_icp_shift : forall num build start mon typ pts raw rest a b m p pre names_line body n,
  start <> [] -> (forall x, In x (List.app start [mon; typ; pts; raw; rest]) -> has "'" x = false) ->
  words mon = [a; b] -> num a = Some m -> num b = Some p -> int_ok pts = true ->
  let first := icp_first start mon typ pts raw rest in
  (forall x, In x (first :: pre) -> contains "Q(x)" x = false) -> contains "Q(x)" names_line = true ->
  NoDup (words names_line) -> ~ In "monitor" (words names_line) -> (2 <= n)%nat -> rectangular n (names_line :: body) ->
  ((List.length pre <= 10)%nat -> points (skipn (10 - List.length pre) body) <> [] ->
    exists d, load_icp num build (List.app (first :: pre) (names_line :: body)) = Ok d
      /\ has_columns num (words names_line) n (points (skipn (10 - List.length pre) body)) ["monitor"] d)
  /\ (List.length pre = 11%nat -> cells names_line <> [] ->
    exists d, load_icp num build (List.app (first :: pre) (names_line :: body)) = Ok d
      /\ has_columns num (words names_line) n (cells names_line :: points body) ["monitor"] d).
Proof.
  intros num build start mon typ pts raw rest a b m p pre nl body n S H W A B I first F C ND NM N2 R. split.
  - intros L NP. pose proof (after_early (first :: pre) nl body ltac:(cbn [List.length]; lia)) as E.
    replace (11 - List.length (first :: pre))%nat with (10 - List.length pre)%nat in E by (cbn [List.length]; lia).
    destruct (C73_icp num build start mon typ pts raw rest a b m p pre nl body n) as [d [X [Y _]]]; try assumption.
    + fold first. rewrite E. intros l J. apply R. right. apply skipn_in in J. exact J.
    + fold first. rewrite E. exact NP.
    + exists d. split; [exact X|]. fold first in Y. rewrite E in Y. exact Y.
  - intros L NC. pose proof (after_late (first :: pre) nl body ltac:(cbn [List.length]; lia)) as E.
    assert (P : points (nl :: body) = cells nl :: points body). { rewrite points_cons, blank_spec. destruct (cells nl); [contradiction|reflexivity]. }
    destruct (C73_icp num build start mon typ pts raw rest a b m p pre nl body n) as [d [X [Y _]]]; try assumption.
    + fold first. rewrite E. exact R.
    + fold first. rewrite E, P. discriminate.
    + exists d. split; [exact X|]. fold first in Y. rewrite E, P in Y. exact Y.
Qed.
Print Assumptions C73_icp_shift.

(** *** MAD *)
Lemma scan_app take a : forall n b, scan take n (List.app a b) =
  (List.app (fst (scan take n a)) (fst (scan take (n + List.length a) b)), List.app (snd (scan take n a)) (snd (scan take (n + List.length a) b))).
Proof.
  induction a as [|l r IH]; intros n b.
  - cbn [List.app scan fst snd List.length]. rewrite Nat.add_0_r. apply surjective_pairing.
  - cbn [List.app scan List.length]. rewrite IH. rewrite Nat.add_succ_r. cbn [Nat.add].
    destruct (scan take (S n) r) as [x y]. cbn [fst snd].
    destruct (blank l); [reflexivity|]. destruct (take (cells l)); reflexivity.
Qed.
Lemma drop_first l r : blank l = false -> drop_blank (l :: r) = l :: r.
Proof. intros B. simpl. rewrite B. reflexivity. Qed.
Lemma scan_blank take ls : (forall l, In l ls -> cells l = []) -> forall n, scan take n ls = ([], []).
Proof.
  induction ls as [|l r IH]; intros H n; [reflexivity|]. cbn [scan]. rewrite IH by (intros; apply H; right; assumption).
  rewrite blank_spec, (H l (or_introl eq_refl)). reflexivity.
Qed.
Lemma map_cells_points ls : (forall l, In l ls -> cells l <> []) -> points ls = map cells ls.
Proof.
  induction ls as [|l r IH]; intros H; [reflexivity|]. rewrite points_cons, blank_spec. pose proof (H l (or_introl eq_refl)) as N.
  destruct (cells l) eqn:E; [contradiction|]. cbn [List.length Nat.eqb map]. rewrite E, IH; [reflexivity|]. intros; apply H; right; assumption.
Qed.
Lemma rows_footer n k file body last blanks : (0 < n)%nat -> skipn k file = List.app body (last :: blanks) -> body <> [] ->
  (forall l, In l body -> List.length (cells l) = n) -> cells last <> [] -> (forall l, In l blanks -> cells l = []) ->
  rows None k 1 file = Ok (map cells body).
Proof.
  intros N0 E NB H L B. unfold rows. rewrite E.
  assert (NE : forall l, In l body -> cells l <> []) by (intros l I F; specialize (H l I); rewrite F in H; simpl in H; lia).
  destruct body as [|b0 r]; [contradiction|].
  assert (B0 : blank b0 = false) by (rewrite blank_spec; rewrite (H b0 (or_introl eq_refl)); apply Nat.eqb_neq; lia).
  change (List.app (b0 :: r) (last :: blanks)) with (b0 :: List.app r (last :: blanks)). rewrite drop_first by exact B0.
  cbn [hd]. rewrite (H b0 (or_introl eq_refl)).
  change (b0 :: List.app r (last :: blanks)) with (List.app (b0 :: r) (last :: blanks)). set (body := b0 :: r) in *.
  rewrite scan_app. rewrite (scan_all (take_all n) body 1) by (intros l I F; unfold take_all; rewrite (H l I), Nat.eqb_refl; discriminate).
  cbn [fst snd]. rewrite take_points by (intros l I; right; apply H; exact I).
  rewrite (map_cells_points body NE). cbn [scan]. rewrite (scan_blank _ blanks B).
  assert (BL : blank last = false) by (rewrite blank_spec; destruct (cells last); [contradiction|reflexivity]). rewrite BL.
  destruct (take_all n (cells last)) as [t|]; cbn [fst snd List.app].
  - cbn [Nat.eqb filter List.length Nat.sub]. rewrite app_length, map_length. cbn [List.length].
    rewrite firstn_app, map_length. replace (List.length body + 1 - 1)%nat with (List.length body) by lia.
    rewrite Nat.sub_diag. cbn [firstn]. rewrite app_nil_r. rewrite <- (map_length cells body) at 1. rewrite firstn_all. reflexivity.
  - rewrite app_nil_r, map_length. cbn [Nat.eqb filter].
    assert (X : Nat.leb (1 + List.length body) (List.length body) = false) by (apply Nat.leb_gt; lia). rewrite X.
    cbn [negb List.length Nat.sub]. rewrite Nat.sub_0_r. rewrite <- (map_length cells body) at 1. rewrite firstn_all. reflexivity.
Qed.
Lemma len_app_skip {A} (pre : list A) x y r : skipn (List.length pre + 2) (List.app pre (x :: y :: r)) = r.
Proof. rewrite skipn_app, skipn_all2 by lia. replace (List.length pre + 2 - List.length pre)%nat with 2%nat by lia. reflexivity. Qed.

Definition mad_Q := [("h", "QH"); ("k", "QK"); ("l", "QL"); ("e", "EN"); ("temp", "TT")].
(** A MAD file: lines up to the one with DATA_:, the names, points, and one more line that is not blank.  That line is not a point, whatever
    is in it. *)
Theorem C73_mad : forall num build pre mark names_line body last blanks n,
  (forall x, In x pre -> contains "DATA_:" x = false) -> contains "DATA_:" mark = true ->
  NoDup (words names_line) -> (2 <= n)%nat -> body <> [] -> (forall l, In l body -> List.length (cells l) = n) ->
  cells last <> [] -> (forall l, In l blanks -> cells l = []) ->
  exists d, load_mad num build (List.app pre (mark :: names_line :: List.app body (last :: blanks))) = Ok d
    /\ has_columns num (words names_line) n (map cells body) [] d
    /\ role d "monitor" = get "M1" (cols d) /\ role d "detector" = get "CNTS" (cols d) /\ role d "time" = get "TIME" (cols d)
    /\ (build = true -> forall k x, In (k, x) mad_Q -> Q_of d k = get x (cols d))
    /\ header d = None /\ err d = None.
Proof.
  intros num build pre mark nl body last blanks n F C ND N2 NB H L B. unfold load_mad.
  rewrite (find_app "DATA_:" pre mark _ F C 0). cbn [Nat.add]. unfold genfromtxt.
  rewrite (rows_footer n _ _ body last blanks) by (try assumption; try lia; apply len_app_skip). cbn [bind].
  rewrite (columns_rect num n) by (first [assumption|destruct body; [contradiction|discriminate]|intros p I; apply in_map_iff in I; destruct I as [l [<- I]]; apply H; exact I]).
  cbn [bind]. destruct (assign_columns num (words nl) (map cells body) n ND) as [G K].
  eexists. split; [reflexivity|]. unfold has_columns, role, Q_of. cbn [cols dks qks header err get String.eqb Ascii.eqb Bool.eqb].
  repeat split.
  - exact G.
  - rewrite app_nil_r. exact K.
  - intros -> k x J. cbn [mad_Q In] in J. repeat (destruct J as [J|J]; [injection J as <- <-; reflexivity|]). contradiction.
Qed.
Print Assumptions C73_mad.

(** *** ICE *)
Definition ice_Q := [("h", "QX"); ("k", "QY"); ("l", "QZ"); ("e", "E"); ("temp", "Temp")].
(** The nine first columns of the points, under the nine first names after the word Columns. *)
Theorem C73_ice : forall num build pre names_line rest,
  let file := List.app pre (names_line :: rest) in
  (forall x, In x pre -> contains "Columns" x = false) -> contains "Columns" names_line = true ->
  NoDup (tl (words names_line)) -> points file <> [] -> (forall l, In l file -> cells l = [] \/ (9 <= List.length (cells l))%nat) ->
  exists d, load_ice num build file = Ok d
    /\ has_columns num (tl (words names_line)) 9 (points file) [] d
    /\ role d "monitor" = get "Monitor" (cols d) /\ role d "detector" = get "Detector" (cols d) /\ role d "time" = get "Time" (cols d)
    /\ (build = true -> forall k x, In (k, x) ice_Q -> Q_of d k = get x (cols d))
    /\ header d = None /\ err d = None.
Proof.
  intros num build pre nl rest file F C ND NP H. unfold load_ice, genfromtxt.
  assert (S0 : skipn 0 file = file) by reflexivity.
  rewrite (rows_first 9 0 file) by (try lia; exact H). rewrite S0. cbn [bind].
  set (ps := points file) in *.
  rewrite (columns_rect num 9) by (first [lia|destruct ps; [contradiction|discriminate]|
    intros p I; apply in_map_iff in I; destruct I as [q [<- I]]; destruct (points_in _ _ I) as [l [J [E N]]]; destruct (H l J); [congruence|]; rewrite firstn_length; subst q; lia]).
  cbn [bind]. unfold file. rewrite (find_app "Columns" pre nl rest F C 0).
  assert (CE : map (column num (map (firstn 9) ps)) (seq 0 9) = map (column num ps) (seq 0 9)).
  { apply map_ext_in. intros j J. apply in_seq in J. unfold column.
    assert (X : forall p : list string, nth j (firstn 9 p) "" = nth j p "").
    { intros p. assert (JJ : (j < 9)%nat) by lia. revert JJ. generalize 9%nat. revert j J. clear. induction p as [|x p IH]; intros j J m L; [destruct m; reflexivity|].
      destruct m; [lia|]. destruct j; [reflexivity|]. cbn [firstn nth]. apply IH; lia. }
    destruct ps as [|a [|b r]]; [reflexivity| |]; cbn [map]; rewrite ?X; [reflexivity|]. f_equal. f_equal. f_equal.
    rewrite map_map. apply map_ext. intros p. rewrite X. reflexivity. }
  rewrite CE. destruct (assign_columns num (tl (words nl)) ps 9 ND) as [G K].
  eexists. split; [reflexivity|]. unfold has_columns, role, Q_of. cbn [cols dks qks header err get String.eqb Ascii.eqb Bool.eqb].
  repeat split.
  - exact G.
  - rewrite app_nil_r. exact K.
  - intros -> k x J. cbn [ice_Q In] in J. repeat (destruct J as [J|J]; [injection J as <- <-; reflexivity|]). contradiction.
Qed.
Print Assumptions C73_ice.

(** *** Lines of different lengths *)
Lemma scan_bad take ls l : In l ls -> blank l = false -> take (cells l) = None -> forall n, snd (scan take n ls) <> [].
Proof.
  intros I B T. induction ls as [|a r IH]; intros n; [contradiction|]. cbn [scan]. destruct I as [<-|I].
  - destruct (scan take (S n) r) as [x y]. rewrite B, T. cbn [snd]. discriminate.
  - specialize (IH I (S n)). destruct (scan take (S n) r) as [x y]. cbn [snd] in IH. destruct (blank a); [exact IH|].
    destruct (take (cells a)); cbn [snd]; [exact IH|discriminate].
Qed.
Lemma in_keep l ls : In l ls -> blank l = false -> In l (drop_blank ls).
Proof.
  intros I B. induction ls as [|a r IH]; [contradiction|]. simpl. destruct (blank a) eqn:A; [|exact I].
  destruct I as [<-|I]; [congruence|auto].
Qed.
Lemma rows_bad u k file l : In l (skipn k file) -> blank l = false ->
  (match u with Some m => take_first m | None => take_all (List.length (cells (hd "" (drop_blank (skipn k file))))) end) (cells l) = None -> rows u k 0 file = Err ValueError.
Proof.
  intros I B T. unfold rows. pose proof (scan_bad _ _ l (in_keep _ _ I B) B T 1) as S.
  destruct (scan _ 1 (drop_blank (skipn k file))) as [good bad]. cbn [snd] in S. cbn [Nat.eqb]. destruct bad; [contradiction|reflexivity].
Qed.
Definition ragged (ls : list string) : Prop := exists l l', In l ls /\ In l' ls /\ cells l <> [] /\ cells l' <> [] /\ List.length (cells l) <> List.length (cells l').
Lemma rows_ragged k file : ragged (skipn k file) -> rows None k 0 file = Err ValueError.
Proof.
  intros (l & l' & I & I' & N & N' & D).
  assert (B : forall x, cells x <> [] -> blank x = false) by (intros x X; rewrite blank_spec; destruct (cells x); [contradiction|reflexivity]).
  set (n := List.length (cells (hd "" (drop_blank (skipn k file))))).
  destruct (Nat.eq_dec (List.length (cells l)) n) as [E|E].
  - apply (rows_bad None k file l' I' (B _ N')). fold n. unfold take_all. rewrite (proj2 (Nat.eqb_neq _ _)) by congruence. reflexivity.
  - apply (rows_bad None k file l I (B _ N)). fold n. unfold take_all. rewrite (proj2 (Nat.eqb_neq _ _) E). reflexivity.
Qed.

(** A point with another number of cells than the others: ICP, SPICE and GRASP files are not loaded.  In ICE files only points with less
    than nine cells are refused. *)
Theorem C73_ragged : forall num build file,
  (ragged (skipn 12 file) -> (exists l r, file = l :: r /\ exists m, icp_monitor num l = Ok m) -> load_icp num build file = Err ValueError)
  /\ (ragged file -> (exists pre ch nl post, file = List.app pre (ch :: nl :: post) /\ contains "col_headers" ch = true
        /\ (forall x, In x pre -> contains "col_headers" x = false) /\ (forall x, In x post -> contains "col_headers" x = false)) -> load_spice num build file = Err ValueError)
  /\ (forall pre l body, file = List.app pre (l :: body) -> (forall x, In x pre -> contains "Err_I" x = false) -> contains "Err_I" l = true -> ragged body -> load_grasp num file = Err ValueError)
  /\ (forall l, In l file -> cells l <> [] -> (List.length (cells l) < 9)%nat -> load_ice num build file = Err ValueError).
Proof.
  intros num build file. repeat split.
  - intros R (l & r & -> & m & E). unfold load_icp. rewrite E. cbn [bind]. unfold genfromtxt. rewrite (rows_ragged 12) by exact R. reflexivity.
  - intros R (pre & ch & nl & post & E & C & P & Q). unfold load_spice.
    assert (S : exists h c, spice_header file = Ok (h, c)).
    { assert (SP : forall ls, (forall x, In x ls -> contains "col_headers" x = false) -> exists h c, spice_header ls = Ok (h, c)).
      { induction ls as [|a q IH]; intros X; [exists [], None; reflexivity|]. destruct IH as (h & c & IH); [intros; apply X; right; assumption|].
        cbn [spice_header]. rewrite (X a (or_introl eq_refl)), IH. eexists _, _; reflexivity. }
      subst file. clear R. induction pre as [|a q IH].
      - cbn [List.app spice_header]. rewrite C. destruct (SP post Q) as (h & c & ->). eexists _, _; reflexivity.
      - cbn [List.app spice_header]. rewrite (P a (or_introl eq_refl)). destruct IH as (h & c & IH); [intros; apply P; right; assumption|].
        rewrite IH. eexists _, _; reflexivity. }
    destruct S as (h & c & ->). cbn [bind]. unfold genfromtxt. rewrite (rows_ragged 0) by exact R. reflexivity.
  - intros pre l body -> P C R. unfold load_grasp. rewrite (find_app "Err_I" pre l body P C 0). cbn [Nat.add].
    rewrite rows_ragged; [reflexivity|]. rewrite skipn_app, skipn_all2 by lia.
    replace (List.length pre + 1 - List.length pre)%nat with 1%nat by lia. exact R.
  - intros l I N L. unfold load_ice, genfromtxt. rewrite (rows_bad (Some 9%nat) 0 file l); [reflexivity|exact I| |].
    + rewrite blank_spec. destruct (cells l); [contradiction|reflexivity].
    + unfold take_first. rewrite (proj2 (Nat.leb_gt _ _)) by exact L. reflexivity.
Qed.
Print Assumptions C73_ragged.

(** *** SPICE *)
Lemma spice_plain ls : (forall x, In x ls -> contains "col_headers" x = false) -> spice_header ls = Ok (map (remove "# ") (filter (has "#") ls), None).
Proof.
  induction ls as [|a r IH]; intros H; [reflexivity|]. cbn [spice_header filter]. rewrite (H a (or_introl eq_refl)), IH by (intros; apply H; right; assumption).
  cbn [bind]. destruct (has "#" a); reflexivity.
Qed.
Lemma spice_names pre ch nl post : (forall x, In x pre -> contains "col_headers" x = false) -> (forall x, In x post -> contains "col_headers" x = false) ->
  contains "col_headers" ch = true -> spice_header (List.app pre (ch :: nl :: post)) = Ok (map (remove "# ") (filter (has "#") (List.app pre post)), Some (tl (words nl))).
Proof.
  intros P Q C. induction pre as [|a r IH].
  - cbn [List.app spice_header]. rewrite C, (spice_plain post Q). reflexivity.
  - cbn [List.app spice_header filter]. rewrite (P a (or_introl eq_refl)), IH by (intros; apply P; right; assumption). cbn [bind].
    destruct (has "#" a); reflexivity.
Qed.
Lemma get_del k l x : NoDup (map fst l) -> get x (del k l) = if String.eqb k x then None else get x l.
Proof.
  induction l as [|[a c] r IH]; intros N; [destruct (String.eqb k x); reflexivity|]. cbn [map fst] in N. apply NoDup_cons_iff in N. destruct N as [A N].
  cbn [del get]. destruct (String.eqb a k) eqn:E.
  - apply String.eqb_eq in E. subst a. destruct (String.eqb k x) eqn:X; [|reflexivity]. apply String.eqb_eq in X. subst x.
    destruct (get k r) eqn:G; [|reflexivity]. exfalso. apply A. apply get_In. congruence.
  - cbn [get]. rewrite (IH N). destruct (String.eqb a x) eqn:X; [|reflexivity]. apply String.eqb_eq in X. subst x. rewrite String.eqb_sym in E. rewrite E. reflexivity.
Qed.
Lemma fst_del k l : NoDup (map fst l) -> map fst (del k l) = filter (fun x => negb (String.eqb x k)) (map fst l).
Proof.
  induction l as [|[a c] r IH]; intros N; [reflexivity|]. cbn [map fst] in N. apply NoDup_cons_iff in N. destruct N as [A N].
  cbn [del map fst filter]. destruct (String.eqb a k) eqn:E; cbn [negb].
  - apply String.eqb_eq in E. subst a. symmetry. rewrite <- (IH N). revert A. clear. induction r as [|[b d] q IH]; intros A; [reflexivity|].
    cbn [del map fst] in *. destruct (String.eqb b k) eqn:E; [apply String.eqb_eq in E; exfalso; apply A; left; congruence|].
    cbn [map fst]. rewrite IH by (intros I; apply A; right; exact I). reflexivity.
  - cbn [map fst]. rewrite (IH N). reflexivity.
Qed.
Lemma NoDup_firstn {A} n (l : list A) : NoDup l -> NoDup (firstn n l).
Proof.
  revert n. induction l as [|a r IH]; intros [|n] H; try constructor; apply NoDup_cons_iff in H; destruct H as [N H].
  - intros I. apply N. rewrite <- (firstn_skipn n r). apply in_or_app. auto.
  - apply IH. exact H.
Qed.

Definition spice_Q := [("h", "h"); ("k", "k"); ("l", "l"); ("e", "e"); ("temp", "tvti")].
(** A SPICE file, with one line col_headers: every line without hash is a point.  The column Pt. is left out; a file without it is refused. *)
Theorem C73_spice : forall num build pre mark names_line post n,
  let file := List.app pre (mark :: names_line :: post) in
  let names := tl (words names_line) in
  (forall x, In x pre -> contains "col_headers" x = false) -> (forall x, In x post -> contains "col_headers" x = false) -> contains "col_headers" mark = true ->
  NoDup names -> (2 <= n)%nat -> rectangular n file -> points file <> [] ->
  (In "Pt." (firstn n names) -> exists d, load_spice num build file = Ok d
    /\ (forall j x, nth_error names j = Some x -> (j < n)%nat -> x <> "Pt." -> get x (cols d) = Some (column num (points file) j))
    /\ map fst (cols d) = filter (fun x => negb (String.eqb x "Pt.")) (firstn n names)
    /\ role d "monitor" = get "monitor" (cols d) /\ role d "detector" = get "detector" (cols d) /\ role d "time" = get "time" (cols d)
    /\ (build = true -> forall k x, In (k, x) spice_Q -> Q_of d k = get x (cols d))
    /\ header d = Some (map (remove "# ") (filter (has "#") (List.app pre post))) /\ err d = None)
  /\ (~ In "Pt." (firstn n names) -> load_spice num build file = Err KeyError).
Proof.
  intros num build pre mark nl post n file names P Q C ND N2 R NP. unfold load_spice, file. rewrite (spice_names pre mark nl post P Q C). cbn [bind].
  fold file. unfold genfromtxt. rewrite (rows_all n 0) by (change (skipn 0 file) with file; assumption). change (skipn 0 file) with file. cbn [bind].
  rewrite (columns_rect num n _ N2 NP (rect_points n _ R)). cbn [bind]. fold names.
  destruct (assign_columns num names (points file) n ND) as [G K].
  remember (assign names (map (column num (points file)) (seq 0 n))) as d0 eqn:D0. clear D0.
  assert (N0 : NoDup (map fst d0)) by (rewrite K; apply NoDup_firstn; exact ND).
  split.
  - intros PT. rewrite <- K in PT. pose proof (proj1 (get_In "Pt." d0) PT) as X. destruct (get "Pt." d0) eqn:E; [clear X|contradiction].
    eexists. split; [reflexivity|]. unfold role, Q_of. cbn [cols dks qks header err get String.eqb Ascii.eqb Bool.eqb].
    repeat split.
    + intros j x NJ L D. rewrite get_del by exact N0. rewrite String.eqb_sym, (proj2 (String.eqb_neq _ _) D). apply G; assumption.
    + rewrite fst_del by exact N0. rewrite K. reflexivity.
    + intros -> k x J. cbn [spice_Q In] in J. repeat (destruct J as [J|J]; [injection J as <- <-; reflexivity|]). contradiction.
  - intros PT. rewrite <- K in PT. destruct (get "Pt." d0) eqn:E; [|reflexivity]. exfalso. apply PT. apply get_In. congruence.
Qed.
Print Assumptions C73_spice.

(** *** GRASP *)
(** The column I with its errors; the monitor and the time are one for every point, and there is no h, k, l, e or temperature. *)
Theorem C73_grasp : forall num pre names_line body n,
  let file := List.app pre (names_line :: body) in
  let names := words names_line in
  (forall x, In x pre -> contains "Err_I" x = false) -> contains "Err_I" names_line = true ->
  NoDup names -> ~ In "monitor" names -> ~ In "time" names -> (2 <= n)%nat -> rectangular n body -> points body <> [] ->
  In "I" (firstn n names) -> In "Err_I" (firstn n names) ->
  ((forall l x, In l body -> In x (cells l) -> num x <> None) -> exists d, load_grasp num file = Ok d
    /\ has_columns num names n (points body) ["monitor"; "time"] d
    /\ role d "detector" = get "I" (cols d) /\ role d "monitor" = Some (constant 1 (points body)) /\ role d "time" = Some (constant 1 (points body))
    /\ err d = get "Err_I" (cols d) /\ header d = None
    /\ (forall k, In k ["h"; "k"; "l"; "e"; "temp"] -> ~ In k names -> Q_of d k = None))
  /\ (forall l x, In l body -> In x (cells l) -> num x = None -> load_grasp num file = Err ValueError).
Proof.
  intros num pre nl body n file names P C ND NM NT N2 R NP II IE. unfold load_grasp, file. rewrite (find_app "Err_I" pre nl body P C 0). cbn [Nat.add].
  assert (SK : skipn (List.length pre + 1) file = body).
  { unfold file. rewrite skipn_app, skipn_all2 by lia. replace (List.length pre + 1 - List.length pre)%nat with 1%nat by lia. reflexivity. }
  fold file. rewrite (rows_all n) by (rewrite SK; assumption). rewrite SK. cbn [bind]. set (ps := points body) in *.
  split.
  - intros NN. replace (forallb (forallb (fun x => match num x with Some _ => true | None => false end)) ps) with true.
    2: { symmetry. apply forallb_forall. intros p I. apply forallb_forall. intros x J. destruct (points_in _ _ I) as [l [L [E _]]]. subst p.
         specialize (NN l x L J). destruct (num x); [reflexivity|contradiction]. }
    rewrite (columns_rect num n ps N2 NP (rect_points n _ R)). cbn [bind]. fold names.
    destruct (assign_columns num names ps n ND) as [G K].
    remember (assign names (map (column num ps) (seq 0 n))) as d0 eqn:D0. clear D0.
    destruct (first_names names n "I" II) as [j [EJ LJ]]. rewrite (G j "I" EJ LJ). rewrite (const_shape 1 ps num n j LJ NP).
    destruct (first_names names n "Err_I" IE) as [i [EI LI]].
    assert (GE : get "Err_I" (put "time" (constant 1 ps) (put "monitor" (constant 1 ps) d0)) = Some (column num ps i)) by (rewrite !get_put; cbn [String.eqb Ascii.eqb Bool.eqb]; apply G; assumption).
    rewrite GE. eexists. split; [reflexivity|]. unfold has_columns, role, Q_of. cbn [cols dks qks header err]. 
    assert (M0 : ~ In "monitor" (map fst d0)) by (rewrite K; intros J; apply NM; apply in_firstn in J; exact J).
    assert (T0 : ~ In "time" (map fst (put "monitor" (constant 1 ps) d0))).
    { rewrite put_new by exact M0. rewrite map_app, K. intros J. apply in_app_or in J. destruct J as [J|J]; [apply NT; apply in_firstn in J; exact J|]. cbn in J. destruct J as [J|J]; [discriminate J|exact J]. }
    repeat split.
    + intros k x E L. rewrite !get_put. destruct (String.eqb "time" x) eqn:X; [apply String.eqb_eq in X; subst x; apply nth_error_In in E; contradiction|].
      destruct (String.eqb "monitor" x) eqn:Y; [apply String.eqb_eq in Y; subst x; apply nth_error_In in E; contradiction|]. apply G; assumption.
    + rewrite put_new by exact T0. rewrite put_new by exact M0. rewrite !map_app, K, <- app_assoc. reflexivity.
    + cbn [get String.eqb Ascii.eqb Bool.eqb]. rewrite !get_put. reflexivity.
    + cbn [get String.eqb Ascii.eqb Bool.eqb]. rewrite !get_put. reflexivity.
    + symmetry. exact GE.
    + intros k J NK. assert (GK : get k default_qks = Some k) by (cbn [In] in J; repeat (destruct J as [<-|J]; [reflexivity|]); contradiction). rewrite GK.
      rewrite !get_put. assert (T : String.eqb "time" k = false /\ String.eqb "monitor" k = false) by (cbn [In] in J; repeat (destruct J as [<-|J]; [split; reflexivity|]); contradiction).
      destruct T as [-> ->]. destruct (get k d0) eqn:X; [|reflexivity]. exfalso. apply NK. apply (in_firstn _ n). rewrite <- K. apply get_In. congruence.
  - intros l x I J E. replace (forallb (forallb (fun x => match num x with Some _ => true | None => false end)) ps) with false; [reflexivity|].
    symmetry. apply not_true_is_false. intros X. rewrite forallb_forall in X.
    assert (IP : In (cells l) ps). { unfold ps, points. apply filter_In. split; [apply in_map; exact I|]. destruct (cells l); [contradiction|reflexivity]. }
    specialize (X _ IP). rewrite forallb_forall in X. specialize (X _ J). rewrite E in X. discriminate.
Qed.
Print Assumptions C73_grasp.

(** *** Examples *)
Definition digit_num (s : string) : option Q :=
  match s with
  | String c "" => if digit c then Some (inject_Z (Z.of_nat (nat_of_ascii c - 48))) else None
  | "2." => Some 2%Q | "40" => Some 40%Q | _ => None
  end.
Definition icp_file (gap : nat) : list string :=
  List.app ["'a.ng5' 'Jan  1' 'Q'     2.    3  'NEUT'   2  'RAW'"] (List.app (repeat " text" gap) ["  Q(x) Counts"; " 1 4"; " 2 5 "; ""; " 3 6"]).
Example C73_icp_case : load_icp digit_num true (icp_file 10)
  = Ok (mkLoaded [("Q(x)", Arr [Some 1; Some 2; Some 3]); ("Counts", Arr [Some 4; Some 5; Some 6]); ("monitor", Arr [Some (2 * 3); Some (2 * 3); Some (2 * 3)])]
         [("detector", "Counts"); ("time", "min"); ("monitor", "monitor")] icp_Q None None)%Q.
Proof. reflexivity. Qed.
(** One header line less: the first point is lost; one more: the names become a point without numbers; a point with one more word is refused. *)
Example C73_icp_less : exists d, load_icp digit_num true (icp_file 9) = Ok d /\ get "Counts" (cols d) = Some (Arr [Some 5; Some 6])%Q.
Proof. eexists. split; reflexivity. Qed.
Example C73_icp_more : exists d, load_icp digit_num true (icp_file 11) = Ok d /\ get "Counts" (cols d) = Some (Arr [None; Some 4; Some 5; Some 6])%Q.
Proof. eexists. split; reflexivity. Qed.
Example C73_icp_ragged : load_icp digit_num true (List.app (icp_file 10) [" 1 2 3"]) = Err ValueError.
Proof. reflexivity. Qed.
Example C73_icp_meets : icp_first [""; "a.ng5"; " "; "Jan  1"; " "; "Q"] "     2.    3  " "NEUT" "   2  " "RAW" "" = hd "" (icp_file 10)
  /\ words "     2.    3  " = ["2."; "3"] /\ int_ok "   2  " = true /\ rectangular 2 (skipn 12 (icp_file 10)) /\ points (skipn 12 (icp_file 10)) = [["1"; "4"]; ["2"; "5"]; ["3"; "6"]].
Proof.
  repeat split. intros l I. assert (B : forallb (fun l => Nat.eqb (List.length (cells l)) 0 || Nat.eqb (List.length (cells l)) 2) (skipn 12 (icp_file 10)) = true) by reflexivity.
  rewrite forallb_forall in B. specialize (B l I). apply orb_prop in B. destruct B as [B|B]; apply Nat.eqb_eq in B; [left; apply length_zero_iff_nil; exact B|right; exact B].
Qed.
Definition mad_file (last : list string) : list string := List.app ["RRR"; "DATA_:"; " PNT CNTS M1"; " 1 4 7"; " 2 5 8"; " 3 6 9"] last.
Example C73_mad_case : exists d, load_mad digit_num true (mad_file ["Finished at 02:12:05"; ""]) = Ok d /\ role d "detector" = Some (Arr [Some 4; Some 5; Some 6])%Q.
Proof. eexists. split; reflexivity. Qed.
Example C73_mad_no_trailer : exists d, load_mad digit_num true (mad_file []) = Ok d /\ role d "detector" = Some (Arr [Some 4; Some 5])%Q.
Proof. eexists. split; reflexivity. Qed.
Definition ice_file : list string := ["#ICE"; "#Columns QX QY QZ E A4 Time Temp Monitor Detector A2"; "1 2 3 4 5 6 7 8 9 1"; "1 2 3 4 5 6 7 8 5 1"].
Example C73_ice_case : exists d, load_ice digit_num true ice_file = Ok d /\ role d "detector" = Some (Arr [Some 9; Some 5])%Q /\ get "A2" (cols d) = None.
Proof. eexists. repeat split. Qed.
Definition spice_file : list string := ["# scan = 1"; "# col_headers = "; "#   Pt.  h  detector "; " 1 2 3"; " 2 3 4"; "# Sum of Counts = 3"].
Example C73_spice_case : load_spice digit_num true spice_file
  = Ok (mkLoaded [("h", Arr [Some 2; Some 3]); ("detector", Arr [Some 3; Some 4])] [("monitor", "monitor"); ("detector", "detector"); ("time", "time")] spice_Q (Some ["scan = 1"; "Sum of Counts = 3"]) None)%Q.
Proof. reflexivity. Qed.
Example C73_spice_one : exists d, load_spice digit_num true ["# scan"; "# col_headers = "; "#   Pt.  h  detector "; " 1 2 3"] = Ok d /\ get "h" (cols d) = Some (Num (Some 2%Q)).
Proof. eexists. split; reflexivity. Qed.
Definition grasp_file : list string := ["GRASP V.7"; "  mod_q I Err_I"; " 1 2 3"; " 4 5 6"].
Example C73_grasp_case : exists d, load_grasp digit_num grasp_file = Ok d /\ role d "detector" = Some (Arr [Some 2; Some 5])%Q /\ err d = Some (Arr [Some 3; Some 6])%Q /\ role d "monitor" = Some (Arr [Some 1; Some 1])%Q.
Proof. eexists. repeat split. Qed.

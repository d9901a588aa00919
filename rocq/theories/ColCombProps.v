(** C03, columns: combination of the stored columns keeps the points together. *)
From Coq Require Import String List QArith Bool Arith Lia Permutation.
From Verif Require Import Base DataModel DataSpec CombineProps ColCombModel.
Import ListNotations.
Local Open Scope nat_scope.

(** The columns of a list of points with one value for each name. *)
Fixpoint columns (ks : list key) (rs : list (list Q)) : store := match ks with [] => [] | k :: ks' => (k, map (hd 0%Q) rs) :: columns ks' (map (@tl Q) rs) end.
Definition full (ks : list key) (rs : list (list Q)) : Prop := Forall (fun r => List.length r = List.length ks) rs.

Lemma full_tl k ks rs : full (k :: ks) rs -> full ks (map (@tl Q) rs).
Proof. unfold full. intros H. apply Forall_map. revert H. apply Forall_impl. intros [|x r] L; cbn in *; lia. Qed.
Lemma columns_keys ks : forall rs, map fst (columns ks rs) = ks.
Proof. induction ks as [|k ks IH]; intros rs; cbn; [reflexivity|]. rewrite IH. reflexivity. Qed.
Lemma columns_length ks rs : List.length (columns ks rs) = List.length ks.
Proof. rewrite <- (map_length fst), columns_keys. reflexivity. Qed.
Lemma at_row {B} (f : list Q -> B) rs i r : nth_error rs i = Some r -> nth_error (map f rs) i = Some (f r).
Proof. intros E. rewrite nth_error_map, E. reflexivity. Qed.
Lemma row_cons k ks rs i r : full (k :: ks) rs -> nth_error rs i = Some r -> exists x r', r = x :: r' /\ List.length r' = List.length ks.
Proof. intros F E. apply nth_error_In in E. unfold full in F. rewrite Forall_forall in F. specialize (F r E). destruct r as [|x r']; cbn in F; [lia|]. exists x, r'. split; [reflexivity|lia]. Qed.

Lemma get_item ks : forall rs i r k, full ks rs -> nth_error rs i = Some r ->
  bind (cget (columns ks rs) k) (fun c => item c i) = match lookup ks r k with Some v => Ok v | None => Err KeyError end.
Proof.
  induction ks as [|k' ks IH]; intros rs i r k F E; cbn [columns cget lookup]; [reflexivity|].
  destruct (row_cons _ _ _ _ _ F E) as (x & r' & -> & L). cbn [lookup]. destruct (String.eqb k' k).
  - cbn [bind]. unfold item. rewrite (at_row _ _ _ _ E). reflexivity.
  - apply IH; [exact (full_tl _ _ _ F)|]. rewrite (at_row _ _ _ _ E). reflexivity.
Qed.
Lemma get_bind {B} ks rs i r k (f : Q -> res B) : full ks rs -> nth_error rs i = Some r ->
  bind (cget (columns ks rs) k) (fun c => bind (item c i) f) = match lookup ks r k with Some v => f v | None => Err KeyError end.
Proof.
  intros F E. assert (G := get_item ks rs i r k F E). destruct (cget (columns ks rs) k) as [c|e]; cbn [bind] in *.
  - rewrite G. destruct (lookup ks r k); reflexivity.
  - destruct (lookup ks r k); [discriminate|]. injection G as ->. reflexivity.
Qed.
Lemma vals_coords dk ks : forall rs i r, full ks rs -> nth_error rs i = Some r -> vals dk (columns ks rs) i = Ok (coords dk ks r).
Proof.
  unfold vals, coords. induction ks as [|k ks IH]; intros rs i r F E; [reflexivity|]. destruct (row_cons _ _ _ _ _ F E) as (x & r' & -> & L).
  assert (I := IH (map (@tl Q) rs) i r' (full_tl _ _ _ F) (at_row _ _ _ _ E)). cbn [columns List.combine filter fst snd]. destruct (negb (mem k dk)); [|exact I].
  cbn [map_res map fst snd]. unfold item at 1. rewrite (at_row _ _ _ _ E). cbn [hd]. rewrite I. reflexivity.
Qed.
Lemma scan_same t nk dk ks rs new : full ks rs -> forall n j, j + n = List.length rs -> cscan t nk dk (columns ks rs) new j n = scan t nk new (map (coords dk ks) (skipn j rs)) j.
Proof.
  intros F. induction n as [|n IH]; intros j H.
  - rewrite skipn_all2 by lia. reflexivity.
  - cbn [cscan]. destruct (nth_error rs j) as [r|] eqn:E; [|apply nth_error_None in E; lia]. rewrite (vals_coords _ _ _ _ _ F E). cbn [bind].
    destruct (nth_error_split _ _ E) as (l1 & l2 & -> & L). rewrite skipn_app, skipn_all2 by lia. replace (j - List.length l1) with 0 by lia. cbn [skipn app map scan].
    destruct (close t nk (coords dk ks r) new) as [[|]|e]; cbn [bind]; [reflexivity| |reflexivity]. rewrite IH by lia.
    rewrite skipn_app, skipn_all2 by lia. replace (S j - List.length l1) with 1 by lia. reflexivity.
Qed.
Lemma append_same ks_o o_rows i o : full ks_o o_rows -> nth_error o_rows i = Some o -> forall ks tmp, full ks tmp ->
  cappend (columns ks_o o_rows) i (columns ks tmp) = match append_row ks ks_o o with Ok r => Ok (columns ks (tmp ++ [r])) | Err e => Err e end.
Proof.
  intros Fo Eo. unfold cappend, append_row. induction ks as [|k ks IH]; intros tmp F; [reflexivity|]. cbn [columns map_res fst snd].
  rewrite (get_bind _ _ _ _ _ _ Fo Eo). destruct (lookup ks_o o k) as [v|]; [|reflexivity]. rewrite (IH _ (full_tl _ _ _ F)).
  destruct (@map_res key Q _ ks) as [r|e]; [|reflexivity]. rewrite !map_app. reflexivity.
Qed.
Lemma upd_hd {f} : forall tmp j r x', nth_error tmp j = Some r -> f (hd 0%Q r) = Ok x' ->
  forall r', hd 0%Q r' = x' -> upd_res j f (map (hd 0%Q) tmp) = Ok (map (hd 0%Q) (firstn j tmp ++ r' :: skipn (S j) tmp)).
Proof.
  induction tmp as [|a tmp IH]; intros [|j] r x' E Ef r' H; try discriminate; cbn [map upd_res firstn skipn app nth_error] in *.
  - injection E as ->. rewrite Ef, H. reflexivity.
  - rewrite (IH j r x' E Ef r' H). reflexivity.
Qed.
Lemma upd_at {A} (f : A -> res A) : forall l j r, nth_error l j = Some r -> upd_res j f l = match f r with Ok r' => Ok (firstn j l ++ r' :: skipn (S j) l) | Err e => Err e end.
Proof.
  induction l as [|a l IH]; intros [|j] r E; try discriminate; cbn [upd_res firstn skipn app nth_error] in *.
  - injection E as ->. reflexivity.
  - rewrite (IH j r E). destruct (f r); reflexivity.
Qed.
Lemma add_same dk ks_o o_rows i o : full ks_o o_rows -> nth_error o_rows i = Some o -> forall ks tmp j r, full ks tmp -> nth_error tmp j = Some r ->
  cadd dk (columns ks_o o_rows) i j (columns ks tmp) = match add_row dk ks ks_o o r with Ok r' => Ok (columns ks (firstn j tmp ++ r' :: skipn (S j) tmp)) | Err e => Err e end.
Proof.
  intros Fo Eo. unfold cadd, add_row. induction ks as [|k ks IH]; intros tmp j r F E; [reflexivity|]. destruct (row_cons _ _ _ _ _ F E) as (x & r0 & -> & L).
  cbn [columns map_res fst snd List.combine]. assert (I := IH (map (@tl Q) tmp) j r0 (full_tl _ _ _ F) (at_row _ _ _ _ E)). 
  assert (T : forall y r1, map (@tl Q) (firstn j tmp ++ (y :: r1) :: skipn (S j) tmp) = firstn j (map (@tl Q) tmp) ++ r1 :: skipn (S j) (map (@tl Q) tmp)).
  { intros y r1. rewrite map_app. cbn [map tl]. rewrite firstn_map, skipn_map. reflexivity. }
  destruct (mem k dk).
  - rewrite (get_bind _ _ _ _ _ _ Fo Eo). destruct (lookup ks_o o k) as [v|]; [|reflexivity].
    rewrite (upd_hd tmp j (x :: r0) (x + v)%Q E eq_refl ((x + v)%Q :: []) eq_refl). cbn [bind]. rewrite I.
    match goal with |- context [map_res ?f (List.combine ks r0)] => destruct (map_res f (List.combine ks r0)) as [r1|e] end; [|reflexivity]. cbn [columns]. rewrite T. do 3 f_equal. rewrite !map_app. reflexivity.
  - rewrite I. match goal with |- context [map_res ?f (List.combine ks r0)] => destruct (map_res f (List.combine ks r0)) as [r1|e] end; [|reflexivity]. cbn [columns]. rewrite T. do 3 f_equal.
    destruct (nth_error_split _ _ E) as (l1 & l2 & -> & L1). rewrite firstn_app, firstn_all2, skipn_app, skipn_all2 by lia. replace (j - List.length l1) with 0 by lia. replace (S j - List.length l1) with 1 by lia.
    cbn [firstn skipn app]. rewrite app_nil_r, !map_app. reflexivity.
Qed.
Lemma map_res_length {A B} (f : A -> res B) : forall l r, map_res f l = Ok r -> List.length r = List.length l.
Proof. induction l as [|a l IH]; cbn; intros r E; [injection E as <-; reflexivity|]. destruct (f a); [|discriminate]. destruct (map_res f l) eqn:M; [|discriminate]. injection E as <-. cbn. rewrite (IH _ eq_refl). reflexivity. Qed.
Lemma add_row_length dk ks ks_o o r r' : List.length r = List.length ks -> add_row dk ks ks_o o r = Ok r' -> List.length r' = List.length ks.
Proof. intros L E. apply map_res_length in E. rewrite E, combine_length. lia. Qed.
Lemma scan_range t nk new : forall l j0 j, scan t nk new l j0 = Ok (Some j) -> j0 <= j < j0 + List.length l.
Proof.
  induction l as [|a l IH]; cbn [scan]; intros j0 j E; [discriminate|]. destruct (close t nk a new) as [[|]|e]; [|apply IH in E; cbn; lia|discriminate]. injection E as <-. cbn. lia.
Qed.
Lemma skip_at {A} : forall (l : list A) i o, nth_error l i = Some o -> skipn i l = o :: skipn (S i) l.
Proof. induction l as [|a l IH]; intros [|i] o E; try discriminate; [injection E as ->; reflexivity|apply (IH i o E)]. Qed.
Lemma loop_same t dks ks rs dko ks_o os : full ks rs -> full ks_o os -> forall n i tmp, i + n = List.length os -> full ks tmp -> List.length rs <= List.length tmp ->
  cloop t dks (columns ks rs) (List.length rs) dko (columns ks_o os) i n (columns ks tmp) =
  match comb_loop t dks ks dko ks_o (map (coords dks ks) rs) (skipn i os) tmp with Ok tmp' => Ok (columns ks tmp') | Err e => Err e end.
Proof.
  intros F Fo. induction n as [|n IH]; intros i tmp H Ft Lt.
  - rewrite skipn_all2 by lia. reflexivity.
  - cbn [cloop]. destruct (nth_error os i) as [o|] eqn:E; [|apply nth_error_None in E; lia]. rewrite (vals_coords _ _ _ _ _ Fo E). cbn [bind].
    assert (Sk := skip_at _ _ _ E).
    rewrite Sk. cbn [comb_loop]. rewrite columns_length, (scan_same t _ dks ks rs _ F (List.length rs) 0 eq_refl). cbn [skipn].
    destruct (scan t _ _ _ 0) as [[j|]|e] eqn:S; cbn [bind]; [| |reflexivity].
    + apply scan_range in S. rewrite map_length in S. destruct (nth_error tmp j) as [r|] eqn:Er; [|apply nth_error_None in Er; lia].
      rewrite (add_same dks _ _ _ _ Fo E ks tmp j r Ft Er), (upd_at _ _ _ _ Er). destruct (add_row dks ks ks_o o r) as [r'|e] eqn:A; cbn [bind]; [|reflexivity].
      assert (Lr : List.length r = List.length ks) by (unfold full in Ft; rewrite Forall_forall in Ft; apply Ft; eapply nth_error_In, Er). apply (add_row_length _ _ _ _ _ _ Lr) in A.
      apply IH; [lia| |].
      * unfold full in *. rewrite <- (firstn_skipn j tmp) in Ft. apply Forall_app in Ft. destruct Ft as [F1 F2]. apply Forall_app. split; [exact F1|]. constructor; [exact A|].
        rewrite (skip_at _ _ _ Er) in F2. inversion F2; subst. assumption.
      * rewrite app_length, firstn_length. cbn [List.length]. rewrite skipn_length. lia.
    + rewrite (append_same _ _ _ _ Fo E ks tmp Ft). destruct (append_row ks ks_o o) as [r|e] eqn:A; cbn [bind]; [|reflexivity].
      apply IH; [lia| |rewrite app_length; cbn; lia]. unfold full. apply Forall_app. split; [exact Ft|]. constructor; [apply (map_res_length _ _ _ A)|constructor].
Qed.

(** Sorting. *)
Lemma insert_map (le : list Q -> list Q -> bool) le' rs x : forall l, (forall i, In i (x :: l) -> i < List.length rs) ->
  (forall i j, i < List.length rs -> j < List.length rs -> le' i j = le (nth i rs []) (nth j rs [])) ->
  map (fun i => nth i rs []) (insert_pos le' x l) = insert_row le (nth x rs []) (map (fun i => nth i rs []) l) /\ (forall i, In i (insert_pos le' x l) -> i < List.length rs).
Proof.
  induction l as [|y l IH]; intros H LE; cbn [insert_pos map insert_row]; [split; [reflexivity|exact H]|].
  rewrite <- (LE x y) by (apply H; cbn; auto). destruct (le' x y); [split; [reflexivity|exact H]|].
  destruct IH as [I1 I2]; [intros i [<-|I]; apply H; cbn; auto|exact LE|]. split; [cbn [map]; rewrite I1; reflexivity|]. intros i [<-|I]; [apply H; cbn; auto|apply I2, I].
Qed.
Lemma sort_map le le' rs : (forall i j, i < List.length rs -> j < List.length rs -> le' i j = le (nth i rs []) (nth j rs [])) -> forall l, (forall i, In i l -> i < List.length rs) ->
  map (fun i => nth i rs []) (sort_pos le' l) = sort_rows le (map (fun i => nth i rs []) l) /\ (forall i, In i (sort_pos le' l) -> i < List.length rs).
Proof.
  intros LE. induction l as [|x l IH]; intros H; cbn [sort_pos map sort_rows]; [split; [reflexivity|exact H]|].
  destruct IH as [I1 I2]; [intros i I; apply H; right; exact I|]. destruct (insert_map le le' rs x (sort_pos le' l)) as [J1 J2]; [intros i [<-|I]; [apply H; left; reflexivity|apply I2, I]|exact LE|].
  rewrite J1, I1. split; [reflexivity|exact J2].
Qed.
Lemma rows_by_position (rs : list (list Q)) : map (fun i => nth i rs []) (seq 0 (List.length rs)) = rs.
Proof. induction rs as [|r rs IH]; [reflexivity|]. cbn [List.length seq map nth]. f_equal. rewrite <- seq_shift, map_map. exact IH. Qed.
Lemma gather_same ind : forall ks rs, full ks rs -> (forall i, In i ind -> i < List.length rs) -> gather ind (columns ks rs) = Ok (columns ks (map (fun i => nth i rs []) ind)).
Proof.
  unfold gather. induction ks as [|k ks IH]; intros rs F H; [reflexivity|]. cbn [columns map_res fst snd].
  assert (M : map_res (item (map (hd 0%Q) rs)) ind = Ok (map (hd 0%Q) (map (fun i => nth i rs []) ind))).
  { clear IH. induction ind as [|i ind IH]; [reflexivity|]. cbn [map_res map]. unfold item at 1. rewrite nth_error_map. assert (Hi : i < List.length rs) by (apply H; left; reflexivity).
    rewrite (nth_error_nth' rs [] Hi). cbn [option_map]. rewrite IH by (intros; apply H; right; assumption). reflexivity. }
  rewrite M. cbn [bind]. rewrite IH; [|exact (full_tl _ _ _ F)|rewrite map_length; exact H]. do 3 f_equal. rewrite map_map. apply map_ext. intros i. change (@nil Q) with (tl (@nil Q)) at 1. rewrite map_nth. reflexivity.
Qed.
Lemma filtered_at dk : forall ks rs i, full ks rs -> i < List.length rs -> at_pos (map snd (filter (fun kc => negb (mem (fst kc) dk)) (columns ks rs))) i = coords dk ks (nth i rs []).
Proof.
  unfold at_pos, coords. induction ks as [|k ks IH]; intros rs i F H; [reflexivity|]. cbn [columns]. assert (E := nth_error_nth' rs [] H). destruct (row_cons _ _ _ _ _ F E) as (x & r & Er & L). rewrite Er.
  cbn [filter List.combine fst]. assert (I := IH (map (@tl Q) rs) i (full_tl _ _ _ F) ltac:(rewrite map_length; exact H)). change (@nil Q) with (tl (@nil Q)) in I at 1. rewrite map_nth, Er in I. cbn [tl] in I.
  destruct (negb (mem k dk)); [|exact I]. cbn [map snd]. rewrite I. f_equal. rewrite (nth_indep _ 0%Q (hd 0%Q [])) by (rewrite map_length; exact H). rewrite map_nth, Er. reflexivity.
Qed.
Lemma lexsort_same dk ks rs : full ks rs -> bind (lexsort (map snd (filter (fun kc => negb (mem (fst kc) dk)) (columns ks rs)))) (fun ind => gather ind (columns ks rs)) =
  if Nat.eqb (List.length (filter (fun k => negb (mem k dk)) ks)) 0 then Err TypeError else Ok (columns ks (sort_rows (row_leb dk ks) rs)).
Proof.
  intros F. set (cs := map snd (filter (fun kc => negb (mem (fst kc) dk)) (columns ks rs))).
  assert (Lc : List.length cs = List.length (filter (fun k => negb (mem k dk)) ks)).
  { unfold cs. rewrite map_length. clear F cs. revert rs. induction ks as [|k ks IH]; intros rs; [reflexivity|]. cbn [columns filter fst]. destruct (negb (mem k dk)); cbn [List.length]; rewrite IH; reflexivity. }
  rewrite <- Lc. assert (Un : forall c, In c cs -> List.length c = List.length rs).
  { intros c I. unfold cs in I. apply in_map_iff in I. destruct I as ((k & c') & <- & I). apply filter_In in I. destruct I as [I _]. cbn. clear -I. revert rs I. induction ks as [|k0 ks IH]; intros rs I; [destruct I|]. destruct I as [E|I]; [injection E as <- <-; apply map_length|]. rewrite (IH _ I). apply map_length. }
  assert (At : forall i, i < List.length rs -> at_pos cs i = coords dk ks (nth i rs [])) by (intros; apply filtered_at; assumption).
  destruct cs as [|c cs']; [reflexivity|]. cbn [List.length Nat.eqb]. unfold lexsort.
  replace (forallb _ cs') with true; [|symmetry; apply forallb_forall; intros d I; apply Nat.eqb_eq; rewrite (Un d) by (right; exact I); rewrite (Un c) by (left; reflexivity); reflexivity].
  cbn [bind]. rewrite (Un c) by (left; reflexivity). destruct (sort_map (row_leb dk ks) (fun i j => lex_leb (rev (at_pos (c :: cs') i)) (rev (at_pos (c :: cs') j))) rs) with (l := seq 0 (List.length rs)) as [S1 S2].
  - intros i j Hi Hj. rewrite !At by assumption. reflexivity.
  - intros i I. apply in_seq in I. lia.
  - rewrite gather_same by assumption. rewrite S1, rows_by_position. reflexivity.
Qed.

(** C03.  On the stored columns [combine_data] does what it does on whole points: its result has the columns of the combined points, every
    column in the same order, and it raises when that raises.  So C01, C02 and C04 to C06 hold of the columns as well. *)
Theorem C03_aligned : forall self obj t, full (keys (tab self)) (rows (tab self)) -> full (keys (tab obj)) (rows (tab obj)) ->
  In (kdet (dk self)) (keys (tab self)) -> In (kdet (dk obj)) (keys (tab obj)) ->
  combine_columns (dk self) (columns (keys (tab self)) (rows (tab self))) (dk obj) (columns (keys (tab obj)) (rows (tab obj))) t =
  match combine_table self obj t with Ok tb => Ok (columns (keys tb) (rows tb)) | Err e => Err e end.
Proof.
  intros self obj t F Fo D Do. unfold combine_columns, combine_table. destruct self as [[ks rs] dks ? ? ? ?], obj as [[ko ro] dko ? ? ? ?]. cbn [tab dk keys rows] in *.
  assert (G : forall ks rs k, In k ks -> exists c, cget (columns ks rs) k = Ok c /\ List.length c = List.length rs).
  { clear. induction ks as [|k0 ks IH]; intros rs k I; [destruct I|]. destruct I as [<-|I]; cbn [columns cget].
    - rewrite String.eqb_refl. eexists. split; [reflexivity|apply map_length].
    - destruct (String.eqb k0 k); [eexists; split; [reflexivity|apply map_length]|]. destruct (IH (map (@tl Q) rs) k I) as (c & E & L). exists c. rewrite L, map_length. split; [exact E|reflexivity]. }
  destruct (G ko ro _ Do) as (od & Eo & Lo). destruct (G ks rs _ D) as (sd & Es & Ls). rewrite Eo. cbn [bind]. rewrite Es. cbn [bind].
  destruct od as [|o0 od].
  - cbn [bind List.length cloop]. destruct ro; [|discriminate]. cbn [comb_loop]. rewrite (lexsort_same (dk_list dks) ks rs F). destruct (Nat.eqb _ 0); reflexivity.
  - cbn [bind]. rewrite Ls. rewrite Lo. rewrite (loop_same t (dk_list dks) ks rs (dk_list dko) ko ro F Fo (List.length ro) 0 rs eq_refl F (le_n _)). cbn [skipn].
    destruct (comb_loop t _ ks _ ko _ ro rs) as [tmp|e] eqn:C; cbn [bind]; [|reflexivity].
    rewrite lexsort_same; [destruct (Nat.eqb _ 0); reflexivity|].
    assert (K : forall os tmp tmp', full ks tmp -> comb_loop t (dk_list dks) ks (dk_list dko) ko (map (coords (dk_list dks) ks) rs) os tmp = Ok tmp' -> full ks tmp').
    { clear. induction os as [|o os IH]; intros tmp tmp' Ft E; cbn [comb_loop] in E; [injection E as <-; exact Ft|].
      destruct (scan t _ _ _ 0) as [[j|]|e]; [| |discriminate].
      - destruct (upd_res j _ tmp) as [tmp1|] eqn:U; [|discriminate]. apply (IH tmp1 tmp'); [|exact E]. clear -U Ft. revert j tmp1 U. induction tmp as [|a tmp IH]; intros [|j] tmp1 U; cbn [upd_res] in U; try discriminate.
        + destruct (add_row _ _ _ _ a) as [r'|] eqn:A; [|discriminate]. injection U as <-. inversion Ft; subst. constructor; [exact (add_row_length _ _ _ _ _ _ H1 A)|assumption].
        + destruct (upd_res j _ tmp) as [tmp2|] eqn:U2; [|discriminate]. injection U as <-. inversion Ft; subst. constructor; [assumption|exact (IH H2 j tmp2 U2)].
      - destruct (append_row ks ko o) as [r|] eqn:A; [|discriminate]. apply (IH (tmp ++ [r]) tmp'); [|exact E]. apply Forall_app. split; [exact Ft|]. constructor; [exact (map_res_length _ _ _ A)|constructor]. }
    exact (K ro rs tmp F C).
Qed.
Print Assumptions C03_aligned.

(** Any columns of one length are the columns of points, so nothing is lost by speaking of those. *)
Theorem C03_points : forall (s : store) n, (forall k c, In (k, c) s -> List.length c = n) ->
  exists rs, List.length rs = n /\ full (map fst s) rs /\ columns (map fst s) rs = s.
Proof.
  intros s n. induction s as [|[k c] s IH]; intros H.
  - exists (repeat [] n). split; [apply repeat_length|]. split; [|reflexivity]. unfold full. apply Forall_forall. intros r I. apply repeat_spec in I. subst. reflexivity.
  - destruct IH as (rs & L & F & E); [intros k' c' I; apply (H k' c'); right; exact I|]. assert (Lc : List.length c = n) by (apply (H k c); left; reflexivity).
    exists (map (fun p => fst p :: snd p) (List.combine c rs)). split; [rewrite map_length, combine_length; lia|]. split.
    + unfold full in *. rewrite Forall_forall in F. apply Forall_forall. intros r I. apply in_map_iff in I. destruct I as ((x & r') & <- & I). cbn. rewrite (F r'); [reflexivity|]. exact (in_combine_r _ _ _ _ I).
    + cbn [map fst columns]. assert (L' : List.length c = List.length rs) by lia. f_equal.
      * f_equal. rewrite map_map. cbn [hd]. clear -L'. revert rs L'. induction c as [|x c IH]; intros [|r rs] L; cbn in *; try lia; [reflexivity|]. f_equal. apply IH. lia.
      * rewrite map_map. cbn [tl]. rewrite <- E at 2. f_equal. clear -L'. revert rs L'. induction c as [|x c IH]; intros [|r rs] L; cbn in *; try lia; [reflexivity|]. f_equal. apply IH. lia.
Qed.
Print Assumptions C03_points.

Local Open Scope string_scope.
Local Open Scope Q_scope.
(** One point in common and one new: the columns are summed, lengthened and sorted together. *)
Example C03_columns_case : combine_columns default_dkeys [("h", [2; 1]); ("detector", [20; 10]); ("monitor", [5; 5]); ("time", [1; 1])]
  default_dkeys [("h", [1; 0]); ("detector", [3; 7]); ("monitor", [5; 5]); ("time", [1; 1])] TolDefault =
  Ok [("h", [0; 1; 2]); ("detector", [7; 10 + 3; 20]); ("monitor", [5; 5 + 5; 5]); ("time", [1; 1 + 1; 1])].
Proof. vm_compute. reflexivity. Qed.

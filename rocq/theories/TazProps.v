(** C71: instruments as Takin files. *)
From Coq Require Import String Ascii List Arith Bool Lia.
From Verif Require Import Base TextModel TextProof InstrFileModel InstrFileProof TazModel.
Import ListNotations.
Local Open Scope string_scope.

(** ** Lists *)
Lemma Ok_inj {A} (x y : A) : Ok x = Ok y -> x = y.
Proof. intros H. injection H as ->. reflexivity. Qed.
Lemma map_res_inv {A B} (f : A -> res B) l ys : map_res f l = Ok ys -> Forall2 (fun x y => f x = Ok y) l ys.
Proof. revert ys. induction l as [|x l IH]; cbn; intros ys H; [injection H as <-; constructor|]. destruct (f x) eqn:E; [|discriminate]. destruct (map_res f l) eqn:F; [|discriminate]. injection H as <-. constructor; auto. Qed.
Lemma map_res_fwd {A B} (f : A -> res B) l ys : Forall2 (fun x y => f x = Ok y) l ys -> map_res f l = Ok ys.
Proof. induction 1 as [|x y l ys H _ IH]; [reflexivity|]. cbn. rewrite H, IH. reflexivity. Qed.
Lemma map_res_total {A B} (f : A -> res B) l : (forall x, In x l -> exists y, f x = Ok y) -> exists ys, map_res f l = Ok ys.
Proof. induction l as [|x l IH]; intros H; [eexists; reflexivity|]. destruct (H x (or_introl eq_refl)) as (y & E). destruct IH as (ys & F); [intros z I; apply H; right; exact I|]. cbn. rewrite E, F. eexists; reflexivity. Qed.
Lemma map_res_err {A B} (f : A -> res B) l e : (forall x, In x l -> (exists y, f x = Ok y) \/ f x = Err e) -> (exists x, In x l /\ f x = Err e) -> map_res f l = Err e.
Proof.
  induction l as [|x l IH]; intros H (z & I & Z); [destruct I|]. cbn. destruct (H x (or_introl eq_refl)) as [(y & E) | E]; rewrite E; [|reflexivity].
  rewrite IH; [reflexivity|intros w W; apply H; right; exact W|]. destruct I as [<-|I]; [congruence|eauto].
Qed.

(** ** Documents *)
Definition rows : list (string * target * string) := combine taz_keys defaults.
Lemma rows_keys : map fst rows = taz_keys. Proof. reflexivity. Qed.
Lemma elements_distinct : NoDup (map fst taz_keys).
Proof.
  assert (D : forall l : list string, (fix nd l := match l with [] => true | x :: r => negb (mem x r) && nd r end) l = true -> NoDup l).
  { induction l as [|x l IH]; intros H; constructor; apply andb_prop in H; destruct H as (H1 & H2); [|apply IH; exact H2]. intros I. unfold mem in H1. assert (E : existsb (String.eqb x) l = true) by (apply existsb_exists; exists x; split; [exact I|apply String.eqb_refl]). rewrite E in H1. discriminate. }
  apply D. vm_compute. reflexivity.
Qed.
Lemma found_row I (l : list (string * target * string)) d : NoDup (map (fun r => fst (fst r)) l) ->
  Forall2 (fun x y => (let '((e, t), dflt) := x in bind (elem_text I t dflt) (fun s => Ok (e, s))) = Ok y) l d ->
  forall e t dflt, In ((e, t), dflt) l -> exists s, elem_text I t dflt = Ok s /\ found d e = Ok s.
Proof.
  intros N H. induction H as [|[[e' t'] d'] [e2 s2] l d H1 H2 IH]; intros e t dflt Hin; [destruct Hin|].
  cbn [map fst] in N. inversion N as [|? ? N1 N2]; subst. destruct (elem_text I t' d') as [s'|] eqn:E; [|discriminate]. cbn [bind] in H1. injection H1 as <- <-.
  destruct Hin as [Hin | Hin].
  - injection Hin as -> -> ->. exists s'. split; [exact E|]. unfold found. cbn [find]. rewrite String.eqb_refl. reflexivity.
  - destruct (IH N2 e t dflt Hin) as (s & E1 & E2). exists s. split; [exact E1|]. unfold found. cbn [find]. destruct (String.eqb_spec e' e) as [->|]; [|exact E2].
    exfalso. apply N1. apply in_map_iff. exists ((e, t), dflt). auto.
Qed.
Lemma found_text I d : document_of I = Ok d -> forall e t dflt, In ((e, t), dflt) rows -> exists s, elem_text I t dflt = Ok s /\ found d e = Ok s.
Proof. intros H. apply (found_row I rows d); [|apply map_res_inv; exact H]. change (NoDup (map fst taz_keys)). exact elements_distinct. Qed.

(** What reading the elements gives. *)
Definition read (d : document) (e : string) : string := match found d e with Ok s => s | Err _ => "" end.
Definition values_in (g : string -> string) : list (target * string) := map (fun p => (snd p, g (fst p))) taz_keys.
Lemma read_values d : (forall e t, In (e, t) taz_keys -> exists s, found d e = Ok s) -> map_res (fun '(e, t) => bind (found d e) (fun s => Ok (t, s))) taz_keys = Ok (values_in (read d)).
Proof.
  unfold values_in. intros H. induction taz_keys as [|[e t] l IH]; [reflexivity|]. cbn [map_res map fst snd]. destruct (H e t (or_introl eq_refl)) as (s & E). unfold read at 1. rewrite E. cbn [bind]. rewrite IH; [reflexivity|]. intros e' t' I. apply (H e' t'). right. exact I.
Qed.
Lemma read_values_inv d vs : map_res (fun '(e, t) => bind (found d e) (fun s => Ok (t, s))) taz_keys = Ok vs -> vs = values_in (read d).
Proof.
  unfold values_in. revert vs. induction taz_keys as [|[e t] l IH]; cbn [map_res map fst snd]; intros vs H; [injection H as <-; reflexivity|]. unfold read at 1. destruct (found d e) as [s|]; [|discriminate]. cbn [bind] in H. destruct (map_res _ l) as [ys|]; [|discriminate]. injection H as <-. rewrite (IH ys eq_refl). reflexivity.
Qed.
Lemma put_all_val vs I g k : val (put_all I vs) g k = match find (fun '(t, _) => same_target t (At g k)) (List.rev vs) with Some (_, s) => Some (text_value s) | None => val I g k end.
Proof.
  revert I. induction vs as [|[t s] vs IH]; intros I; [reflexivity|]. unfold put_all in *. cbn [fold_left]. rewrite IH. cbn [List.rev].
  assert (F : forall (p : target * string -> bool) l x, find p (List.app l [x]) = match find p l with Some y => Some y | None => if p x then Some x else None end) by (intros p l x; induction l as [|y l IHl]; cbn; [reflexivity|destruct (p y); [reflexivity|exact IHl]]).
  rewrite F. destruct (find _ (List.rev vs)) as [[t' s']|]; [reflexivity|]. destruct t as [g' k'|k' n]; cbn [same_target].
  - cbn [put val]. rewrite (String.eqb_sym g g'), (String.eqb_sym k k'). destruct (String.eqb g' g && String.eqb k' k)%bool; reflexivity.
  - reflexivity.
Qed.
Lemma put_all_sub vs I : sub (put_all I vs) = sub I.
Proof. revert I. induction vs as [|[t s] vs IH]; intros I; [reflexivity|]. unfold put_all in *. cbn [fold_left]. rewrite IH. destruct t; reflexivity. Qed.

Lemma same_target_eq a b : same_target a b = true -> a = b.
Proof. destruct a, b; cbn [same_target]; intros H; try discriminate; apply andb_prop in H; destruct H as (H1 & H2); apply String.eqb_eq in H1; [apply String.eqb_eq in H2|apply Nat.eqb_eq in H2]; subst; reflexivity. Qed.
(** The last row of a target. *)
Definition row (t : target) : option (string * target * string) := find (fun r => same_target (snd (fst r)) t) (List.rev rows).
Lemma find_map {A B} (f : A -> B) p l : find p (map f l) = option_map f (find (fun x => p (f x)) l).
Proof. induction l as [|x l IH]; [reflexivity|]. cbn. destruct (p (f x)); [reflexivity|exact IH]. Qed.
Lemma find_values r t : find (fun '(t', _) => same_target t' t) (List.rev (values_in r)) = option_map (fun x => (snd (fst x), r (fst (fst x)))) (row t).
Proof.
  unfold values_in. rewrite <- rows_keys, map_map, <- map_rev, find_map. reflexivity.
Qed.
Lemma row_spec t e t' dflt : row t = Some ((e, t'), dflt) -> t' = t /\ In ((e, t), dflt) rows /\ (forall r, value_of (values_in r) t = r e) /\ forall g k, t = At g k -> forall r J, val (put_all J (values_in r)) g k = Some (text_value (r e)).
Proof.
  intros H. assert (F := H). unfold row in F. apply find_some in F. destruct F as (F1 & F2). cbn [fst snd] in F2. apply same_target_eq in F2. subst t'. apply in_rev in F1. split; [reflexivity|]. split; [exact F1|]. split.
  - intros r. unfold value_of. rewrite find_values, H. reflexivity.
  - intros g k -> r J. rewrite put_all_val, find_values, H. reflexivity.
Qed.

(** ** C71 *)
(** Attributes in the file as a whole, and those of which the last numbers are in it. *)
Definition kept : list (string * string) :=
  ("", "method") :: flat_map (fun g => map (pair g) ["d"; "mosaic"; "direct"; "rh"; "rv"; "height"; "depth"; "width"]) ["ana"; "mono"]
  ++ flat_map (fun g => map (pair g) ["height"; "width"]) ["detector"; "guide"] ++ map (pair "sample") ["depth"; "height"; "width"; "mosaic"; "direct"].
Definition partly : list (string * nat) := [("hcol", 4); ("vcol", 4); ("arms", 5)].
Definition lastn {A} (n : nat) (l : list A) : list A := skipn (List.length l - n) l.
Definition elements (v : value) : option (list string) := match v with Lst l | Arr l => Some l | _ => None end.
(** The instrument has numbers enough, or none at all. *)
Definition enough (I : inst) : Prop := forall k n v, In (k, n) partly -> val I "" k = Some v -> exists l, elements v = Some l /\ n <= List.length l.

Lemma item_ok v n l : elements v = Some l -> 0 < n <= List.length l -> item_text v n = Ok (nth (List.length l - n) l "").
Proof.
  intros E N. assert (H : nth_error (List.rev l) (n - 1) = Some (nth (List.length l - n) l "")).
  { rewrite (nth_error_nth' _ ""); [|rewrite rev_length; lia]. rewrite rev_nth by lia. do 2 f_equal. lia. }
  destruct v; try discriminate; injection E as ->; cbn [item_text]; rewrite H; reflexivity.
Qed.
Lemma item_short v n l : elements v = Some l -> List.length l < n -> item_text v n = Err IndexError.
Proof.
  intros E N. assert (H : nth_error (List.rev l) (n - 1) = None) by (apply nth_error_None; rewrite rev_length; lia).
  destruct v; try discriminate; injection E as ->; cbn [item_text]; rewrite H; reflexivity.
Qed.
Lemma items_in_rows e k n dflt : In ((e, Item k n), dflt) rows -> exists m, In (k, m) partly /\ 0 < n <= m.
Proof.
  assert (C : forallb (fun r => match snd (fst r) with Item k n => existsb (fun p => String.eqb k (fst p) && Nat.ltb 0 n && Nat.leb n (snd p)) partly | _ => true end) rows = true) by (vm_compute; reflexivity).
  intros H. rewrite forallb_forall in C. specialize (C _ H). cbn [fst snd] in C. apply existsb_exists in C. destruct C as ([k' m] & H1 & H2). cbn [fst snd] in H2. apply andb_prop in H2. destruct H2 as (H2 & H3). apply andb_prop in H2. destruct H2 as (H2 & H4). apply String.eqb_eq in H2. subst k'. apply Nat.ltb_lt in H4. apply Nat.leb_le in H3. exists m. auto.
Qed.
Lemma document_ok I : enough I -> exists d, document_of I = Ok d.
Proof.
  intros H. apply map_res_total. intros [[e t] dflt] Hin. destruct t as [g k|k n]; [eexists; reflexivity|]. cbn [elem_text]. destruct (val I "" k) as [v|] eqn:V; [|eexists; reflexivity].
  destruct (items_in_rows e k n dflt Hin) as (m & P & N). destruct (H k m v P V) as (l & E & L). rewrite (item_ok v n l E) by lia. eexists. reflexivity.
Qed.

(** Saving over any file succeeds and touches no other. *)
Theorem C71_save : forall I name f, enough I -> exists f', save_taz I name true f = (f', Ok tt) /\ f' (name ++ ".taz") <> None /\ forall n, n <> name ++ ".taz" -> f' n = f n.
Proof.
  intros I name f H. destruct (document_ok I H) as (d & E). unfold save_taz. rewrite E. eexists. split; [reflexivity|]. unfold write. split; [rewrite String.eqb_refl; discriminate|]. intros n N. destruct (String.eqb_spec n (name ++ ".taz")); [contradiction|reflexivity].
Qed.
Print Assumptions C71_save.
(** Four collimations or five arms too few: nothing is written. *)
Theorem C71_short : forall I name o f, (forall k n v, In (k, n) partly -> val I "" k = Some v -> elements v <> None) ->
  (exists k n v l, In (k, n) partly /\ val I "" k = Some v /\ elements v = Some l /\ List.length l < n) ->
  save_taz I name o f = (f, Err IndexError).
Proof.
  intros I name o f H (k & n & v & l & P & V & E & L). unfold save_taz. replace (document_of I) with (Err IndexError : res document); [reflexivity|]. symmetry. apply map_res_err.
  - intros [[e t] dflt] Hin. destruct t as [g' k'|k' n']; [left; eexists; reflexivity|]. cbn [elem_text]. destruct (val I "" k') as [v'|] eqn:V'; [|left; eexists; reflexivity].
    destruct (items_in_rows e k' n' dflt Hin) as (m & P' & N). destruct (elements v') as [l'|] eqn:E'; [|exfalso; apply (H k' m v' P' V'); exact E'].
    destruct (le_lt_dec n' (List.length l')) as [X|X]; [left; rewrite (item_ok v' n' l' E') by lia; eexists; reflexivity|right; rewrite (item_short v' n' l' E' X); reflexivity].
  - assert (X : exists e dflt, In ((e, Item k n), dflt) rows).
    { assert (C : forallb (fun p => match row (Item (fst p) (snd p)) with Some _ => true | None => false end) partly = true) by (vm_compute; reflexivity).
      rewrite forallb_forall in C. specialize (C _ P). cbn [fst snd] in C. destruct (row (Item k n)) as [[[e t] dflt]|] eqn:R; [|discriminate]. apply row_spec in R. destruct R as (_ & R & _). exists e, dflt. exact R. }
    destruct X as (e & dflt & X). eexists. split; [exact X|]. cbn [elem_text]. rewrite V, (item_short v n l E L). reflexivity.
Qed.
Print Assumptions C71_short.

Definition numeric (I : inst) : Prop := forall k n v l, In (k, n) partly -> val I "" k = Some v -> elements v = Some l -> Forall (fun s => is_float s = true) l.
(** The texts of the numbers of an instrument without any. *)
Definition fallback (k : string) (n : nat) : list string :=
  match find (fun p => String.eqb k (fst p)) [("hcol", ["5"; "1"; "3.355"; "45"]); ("vcol", ["15"; "15"; "115"; "85"]); ("arms", ["0.15"; "200"; "8"; "0"; "0"])] with Some (_, l) => l | None => [] end.
Definition numbers_of (I : inst) (k : string) (n : nat) : list string := match val I "" k with Some v => match elements v with Some l => lastn n l | None => [] end | None => fallback k n end.
Lemma item_row k n i : In (k, n) partly -> i < n -> exists e dflt, (forall g, value_of (values_in g) (Item k (n - i)) = g e) /\ In ((e, Item k (n - i)), dflt) rows /\ dflt = nth i (fallback k n) "".
Proof.
  intros P L. set (chk := fun (k : string) (n i : nat) => match row (Item k (n - i)) with Some (_, dflt) => String.eqb dflt (nth i (fallback k n) "") | None => false end).
  assert (C : forallb (fun p => forallb (chk (fst p) (snd p)) (seq 0 (snd p))) partly = true) by (vm_compute; reflexivity).
  rewrite forallb_forall in C. specialize (C _ P). cbn [fst snd] in C. rewrite forallb_forall in C. specialize (C i ltac:(apply in_seq; lia)). unfold chk in C. destruct (row (Item k (n - i))) as [[[e t] dflt]|] eqn:R; [|discriminate].
  apply row_spec in R. destruct R as (_ & R & V & _). apply String.eqb_eq in C. exists e, dflt. auto.
Qed.
Lemma read_item I d k n i : document_of I = Ok d -> enough I -> In (k, n) partly -> i < n -> value_of (values_in (read d)) (Item k (n - i)) = nth i (numbers_of I k n) "".
Proof.
  intros D H P L. destruct (item_row k n i P L) as (e & dflt & V & R & F). rewrite V. destruct (found_text I d D _ _ _ R) as (s & E & Fd). unfold read. rewrite Fd. cbn [elem_text] in E. unfold numbers_of.
  destruct (val I "" k) as [v|] eqn:Ev; [|injection E as <-; exact F]. destruct (H k n v P Ev) as (l & El & Hl). rewrite El. rewrite (item_ok v (n - i) l El) in E by lia. injection E as <-.
  unfold lastn. clear -L Hl. assert (X : forall (l : list string) j i, nth i (skipn j l) "" = nth (j + i) l ""). { intros l0 j0. revert l0. induction j0 as [|j0 IH]; intros l0 i0; [reflexivity|]. destruct l0 as [|x l0]; [cbn; destruct i0; reflexivity|]. apply IH. }
  rewrite X. f_equal. lia.
Qed.
Lemma numbers_of_length I k n : enough I -> In (k, n) partly -> List.length (numbers_of I k n) = n.
Proof.
  intros H P. unfold numbers_of. destruct (val I "" k) as [v|] eqn:Ev.
  - destruct (H k n v P Ev) as (l & -> & L). unfold lastn. rewrite skipn_length. lia.
  - cbn in P. destruct P as [P|[P|[P|[]]]]; injection P as <- <-; reflexivity.
Qed.
Lemma numbers_of_float I k n : numeric I -> In (k, n) partly -> Forall (fun s => is_float s = true) (numbers_of I k n).
Proof.
  intros H P. unfold numbers_of. destruct (val I "" k) as [v|] eqn:Ev.
  - destruct (elements v) as [l|] eqn:El; [|constructor]. assert (F := H k n v l P Ev El). unfold lastn. rewrite Forall_forall in *. intros x X. apply F. rewrite <- (firstn_skipn (List.length l - n) l). apply in_or_app. right. exact X.
  - cbn in P. destruct P as [P|[P|[P|[]]]]; injection P as <- <-; repeat constructor.
Qed.
Lemma number_float s : is_float s = true -> number s = Ok (refloat s).
Proof. intros H. destruct s as [|c s]; [discriminate|]. cbn [number]. apply float_ok. exact H. Qed.
Lemma numbers_read I d k n : document_of I = Ok d -> enough I -> numeric I -> In (k, n) partly -> numbers (values_in (read d)) k n = Ok (map refloat (numbers_of I k n)).
Proof.
  intros D H N P. assert (L := numbers_of_length I k n H P). assert (F := numbers_of_float I k n N P).
  unfold numbers. apply map_res_fwd.
  assert (G : forall j l, (forall i, i < List.length l -> value_of (values_in (read d)) (Item k (n - (j + i))) = nth i l "") -> Forall (fun s => is_float s = true) l ->
    Forall2 (fun x y => number (value_of (values_in (read d)) (Item k (n - x))) = Ok y) (seq j (List.length l)) (map refloat l)).
  { intros j l. revert j. induction l as [|s l IH]; intros j Q Fl; cbn [List.length seq map]; constructor.
    - inversion Fl; subst. assert (Q0 := Q 0 (Nat.lt_0_succ _)). rewrite Nat.add_0_r in Q0. rewrite Q0. apply number_float. assumption.
    - inversion Fl; subst. apply IH; [|assumption]. intros i Hi. assert (Q1 := Q (S i)). cbn [List.length nth] in Q1. rewrite <- Q1 by lia. do 3 f_equal. lia. }
  specialize (G 0 (numbers_of I k n)). rewrite L in G. apply G; [|exact F]. intros i Hi. cbn [Nat.add]. apply (read_item I d); assumption.
Qed.
Lemma loaded I d : document_of I = Ok d -> enough I -> numeric I -> exists J, instrument_of d = Ok J /\
  J = put_all (put (put (put default "" "hcol" (Lst (map refloat (numbers_of I "hcol" 4)))) "" "vcol" (Lst (map refloat (numbers_of I "vcol" 4)))) "" "arms" (Lst (map refloat (numbers_of I "arms" 5)))) (values_in (read d)).
Proof.
  intros D H N. unfold instrument_of. rewrite read_values.
  2:{ intros e t Hin. rewrite <- rows_keys in Hin. apply in_map_iff in Hin. destruct Hin as ([p dflt] & Hp & Hr). cbn in Hp. subst p. destruct (found_text I d D _ _ _ Hr) as (s & _ & F). exists s. exact F. }
  cbn [bind]. rewrite !(numbers_read I d) by (try assumption; cbn; tauto). cbn [bind]. eexists. split; reflexivity.
Qed.
(** Elements of whole attributes. *)
Lemma whole_row g k : In (g, k) kept -> exists e dflt, In ((e, At g k), dflt) rows /\ forall r J, val (put_all J (values_in r)) g k = Some (text_value (r e)).
Proof.
  intros H. assert (C : forallb (fun p => match row (At (fst p) (snd p)) with Some _ => true | None => false end) kept = true) by (vm_compute; reflexivity).
  rewrite forallb_forall in C. specialize (C _ H). cbn [fst snd] in C. destruct (row (At g k)) as [[[e t] dflt]|] eqn:R; [|discriminate]. apply row_spec in R. destruct R as (_ & R & _ & V). exists e, dflt. split; [exact R|apply V; reflexivity].
Qed.
Definition inb (g k : string) (l : list (string * string)) : bool := existsb (fun p => String.eqb g (fst p) && String.eqb k (snd p)) l.
Lemma inb_In g k l : inb g k l = true <-> In (g, k) l.
Proof.
  unfold inb. rewrite existsb_exists. split; [intros ([g' k'] & I & E); cbn [fst snd] in E; apply andb_prop in E; destruct E as (E1 & E2); apply String.eqb_eq in E1, E2; subst; exact I|]. intros I. exists (g, k). split; [exact I|]. cbn [fst snd]. rewrite !String.eqb_refl. reflexivity.
Qed.
Lemma partly_not_kept k : In k (map fst partly) -> ~ In ("", k) kept.
Proof. intros K C. apply inb_In in C. cbn in K. destruct K as [<-|[<-|[<-|[]]]]; vm_compute in C; discriminate. Qed.
Lemma partly_fst k n : In (k, n) partly -> In k (map fst partly).
Proof. intros P. apply in_map_iff. exists (k, n). auto. Qed.
Lemma other_row g k : ~ In (g, k) kept -> (g, k) <> ("", "") -> forall r J, val (put_all J (values_in r)) g k = val J g k.
Proof.
  intros H N r J. rewrite put_all_val. destruct (find _ _) as [[t s]|] eqn:F; [|reflexivity]. exfalso. apply find_some in F. destruct F as (F & S). apply in_rev in F. unfold values_in in F. apply in_map_iff in F. destruct F as ([e t'] & E & F). cbn [fst snd] in E. injection E as -> _.
  destruct t as [g' k'|]; [|discriminate]. cbn [same_target] in S. apply andb_prop in S. destruct S as (S1 & S2). apply String.eqb_eq in S1, S2. subst g' k'.
  assert (C : forallb (fun p => match snd p with At g k => existsb (fun q => String.eqb g (fst q) && String.eqb k (snd q)) (("", "") :: kept) | Item _ _ => true end) taz_keys = true) by (vm_compute; reflexivity).
  rewrite forallb_forall in C. specialize (C _ F). cbn [snd] in C. apply existsb_exists in C. destruct C as ([g1 k1] & C1 & C2). cbn [fst snd] in C2. apply andb_prop in C2. destruct C2 as (C2 & C3). apply String.eqb_eq in C2, C3. subst g1 k1. destruct C1 as [C1|C1]; [congruence|contradiction].
Qed.

(** What a round trip keeps: the last numbers of the three lists, as floats, and the texts of the whole attributes - not their values.  Everything else is that
    of a new instrument: energies, reflections, lattice and orientation of the saved one are lost. *)
Theorem C71_roundtrip : forall I name f, enough I -> numeric I ->
  exists J, load_taz (name ++ ".taz") (fst (save_taz I name true f)) = Ok J /\
    (forall g k v, In (g, k) kept -> val I g k = Some v -> text v <> "" -> val J g k = Some (Text (text v))) /\
    (forall k n v l, In (k, n) partly -> val I "" k = Some v -> elements v = Some l -> val J "" k = Some (Lst (map refloat (lastn n l)))) /\
    (forall g k, ~ In (g, k) kept -> (g, k) <> ("", "") -> (g = "" -> ~ In k (map fst partly)) -> val J g k = val default g k).
Proof.
  intros I name f H N. destruct (document_ok I H) as (d & D). unfold save_taz. rewrite D. cbn [fst]. unfold load_taz, write. rewrite String.eqb_refl. cbn [f_extra f_doc Nat.leb].
  destruct (loaded I d D H N) as (J & E & EJ). exists J. split; [exact E|]. subst J. split; [|split].
  - intros g k v K V T. destruct (whole_row g k K) as (e & dflt & R & W). rewrite W. destruct (found_text I d D _ _ _ R) as (s & S & F). unfold read. rewrite F. cbn [elem_text] in S. rewrite V in S. injection S as <-. unfold text_value. destruct (text v); [contradiction|reflexivity].
  - intros k n v l P V El. rewrite other_row; [| |intros C; injection C as ->; cbn in P; intuition discriminate].
    + unfold put. cbn [val]. cbn in P. destruct P as [P|[P|[P|[]]]]; injection P as <- <-; cbn [String.eqb Ascii.eqb Bool.eqb andb]; unfold numbers_of; rewrite V, El; reflexivity.
    + exact (partly_not_kept k (partly_fst k n P)).
  - intros g k K NE NP. rewrite other_row by assumption. unfold put. cbn [val]. destruct (String.eqb_spec g ""); [|cbn [andb]; reflexivity]. specialize (NP e). cbn in NP.
    destruct (String.eqb_spec k "arms"); [subst; tauto|]. destruct (String.eqb_spec k "vcol"); [subst; tauto|]. destruct (String.eqb_spec k "hcol"); [subst; tauto|]. reflexivity.
Qed.
Print Assumptions C71_roundtrip.

(** No instrument that comes out of a Takin file can calculate a resolution: the mosaics are texts. *)
Theorem C71_unusable : forall name f J, load_taz name f = Ok J -> divergences J = Err TypeError.
Proof.
  intros name f J H. unfold load_taz in H. destruct (f name) as [t|]; [|discriminate]. destruct (Nat.leb (f_extra t) 1); [|discriminate]. unfold instrument_of in H.
  destruct (map_res _ taz_keys) as [vs|] eqn:V; [|discriminate]. apply read_values_inv in V. subst vs. cbn [bind] in H. destruct (numbers _ "hcol" 4) as [h|]; [|discriminate]. destruct (numbers _ "vcol" 4) as [v|]; [|discriminate]. destruct (numbers _ "arms" 5) as [a|]; [|discriminate]. cbn [bind] in H. apply Ok_inj in H. subst J.
  unfold divergences. assert (K := partly_not_kept).
  rewrite (other_row "" "hcol") by (try discriminate; apply K; cbn; tauto). rewrite (other_row "" "vcol") by (try discriminate; apply K; cbn; tauto).
  destruct (whole_row "mono" "mosaic") as (e & dflt & _ & W); [apply inb_In; reflexivity|]. rewrite W. unfold put. cbn [val String.eqb Ascii.eqb Bool.eqb andb times bind].
  unfold text_value. destruct (read (f_doc t) e); reflexivity.
Qed.
Print Assumptions C71_unusable.

(** Attributes the instrument does not have come back as the number that happens to stand at their place in a list: an analyzer without sizes is 100 m wide. *)
Definition invented : list (string * string * string) :=
  [("", "method", "1"); ("ana", "rh", "10000.0"); ("ana", "rv", "30"); ("ana", "height", "10000.0"); ("ana", "width", "10000.0"); ("ana", "depth", "10000.0");
   ("mono", "rh", "12"); ("mono", "rv", "1.5"); ("mono", "height", "0"); ("mono", "width", "0"); ("mono", "depth", "3"); ("detector", "height", "12"); ("detector", "width", "1");
   ("guide", "height", "12"); ("guide", "width", "5"); ("sample", "height", "0.3"); ("sample", "width", "0"); ("sample", "depth", "8"); ("sample", "mosaic", "1")].
Theorem C71_invented : forall I name f J, enough I -> numeric I -> load_taz (name ++ ".taz") (fst (save_taz I name true f)) = Ok J ->
  (forall g k t, In (g, k, t) invented -> val I g k = None -> val J g k = Some (Text t)) /\
  (val I "" "arms" = None -> val J "" "arms" = Some (Lst ["0.15"; "200.0"; "8.0"; "0.0"; "0.0"])).
Proof.
  intros I name f J H N. destruct (document_ok I H) as (d & D). unfold save_taz. rewrite D. cbn [fst]. unfold load_taz, write. rewrite String.eqb_refl. cbn [f_extra f_doc Nat.leb].
  destruct (loaded I d D H N) as (J' & E & EJ). rewrite E. intros X. apply Ok_inj in X. rewrite X in EJ. subst J. split.
  - intros g k t T V. assert (R : exists e, In ((e, At g k), t) rows /\ forall r J, val (put_all J (values_in r)) g k = Some (text_value (r e))).
    { assert (C : forallb (fun x => match row (At (fst (fst x)) (snd (fst x))) with Some (_, dflt) => String.eqb dflt (snd x) | None => false end) invented = true) by (vm_compute; reflexivity).
      rewrite forallb_forall in C. specialize (C _ T). cbn [fst snd] in C. destruct (row (At g k)) as [[[e t'] dflt]|] eqn:R; [|discriminate]. apply row_spec in R. destruct R as (_ & R & _ & W). apply String.eqb_eq in C. subst dflt. exists e. split; [exact R|apply W; reflexivity]. }
    destruct R as (e & R & W). rewrite W. destruct (found_text I d D _ _ _ R) as (s & S & F). unfold read. rewrite F. cbn [elem_text] in S. rewrite V in S. injection S as <-.
    assert (C : forallb (fun x => negb (String.eqb (snd x) "")) invented = true) by reflexivity. rewrite forallb_forall in C. specialize (C _ T). cbn [snd] in C. unfold text_value. destruct t; [discriminate|reflexivity].
  - intros V. rewrite other_row; [|apply partly_not_kept; cbn; tauto|discriminate].
    unfold put. cbn [val String.eqb Ascii.eqb Bool.eqb andb]. unfold numbers_of. rewrite V. reflexivity.
Qed.
Print Assumptions C71_invented.

(** A second round trip changes nothing more. *)
Theorem C71_again : forall I name f J, enough I -> numeric I -> (forall g k v, In (g, k) kept -> val I g k = Some v -> text v <> "") -> val I "" "" = None ->
  load_taz (name ++ ".taz") (fst (save_taz I name true f)) = Ok J ->
  exists J', load_taz (name ++ ".taz") (fst (save_taz J name true f)) = Ok J' /\ forall g k, val J' g k = val J g k.
Proof.
  intros I name f J H N HT HE. destruct (document_ok I H) as (d & D). unfold save_taz at 1. rewrite D. cbn [fst]. unfold load_taz at 1, write. rewrite String.eqb_refl. cbn [f_extra f_doc Nat.leb].
  destruct (loaded I d D H N) as (J0 & E & EJ). rewrite E. intros X. apply Ok_inj in X. rewrite X in EJ. clear X E.
  assert (P : forall k n, In (k, n) partly -> val J "" k = Some (Lst (map refloat (numbers_of I k n)))).
  { intros k n P. subst J. rewrite other_row; [| |intros C; injection C as ->; cbn in P; intuition discriminate].
    - unfold put. cbn [val]. cbn in P. destruct P as [P|[P|[P|[]]]]; injection P as <- <-; reflexivity.
    - exact (partly_not_kept k (partly_fst k n P)). }
  assert (EJn : enough J). { intros k n v K V. rewrite (P k n K) in V. injection V as <-. eexists. split; [reflexivity|]. rewrite map_length, numbers_of_length by assumption. lia. }
  assert (NJ : numeric J). { intros k n v l K V L. rewrite (P k n K) in V. injection V as <-. cbn in L. injection L as <-. rewrite Forall_map. eapply Forall_impl; [|apply numbers_of_float; eassumption]. intros s S. apply is_float_refloat. exact S. }
  assert (DN : forall e t dflt, In ((e, t), dflt) rows -> dflt <> ""). { intros e t dflt R. assert (C : forallb (fun r => negb (String.eqb (snd r) "")) rows = true) by (vm_compute; reflexivity). rewrite forallb_forall in C. specialize (C _ R). cbn in C. destruct (String.eqb_spec dflt ""); [discriminate|assumption]. }
  assert (W : forall g k, In (g, k) kept -> exists t, t <> "" /\ val J g k = Some (Text t)).
  { intros g k K. subst J. destruct (whole_row g k K) as (e & dflt & R & Wr). rewrite Wr. destruct (found_text I d D _ _ _ R) as (s & S & F). unfold read. rewrite F. exists s.
    assert (s <> ""). { cbn [elem_text] in S. destruct (val I g k) as [v|] eqn:V; injection S as <-; [exact (HT g k v K V)|exact (DN _ _ _ R)]. } split; [assumption|]. unfold text_value. destruct s; [contradiction|reflexivity]. }
  assert (U : forall d0 K0, document_of K0 = Ok d0 -> read d0 "use_guide" = match val K0 "" "" with Some v => text v | None => "200" end).
  { intros d0 K0 D0. assert (R : In (("use_guide", At "" ""), "200") rows) by (apply (row_spec (At "" "") "use_guide" (At "" "") "200"); reflexivity). destruct (found_text K0 d0 D0 _ _ _ R) as (s & S & F). unfold read. rewrite F. cbn [elem_text] in S. injection S as <-. reflexivity. }
  assert (VE : val J "" "" = Some (Text "200")). { subst J. rewrite (proj2 (proj2 (proj2 (row_spec (At "" "") "use_guide" (At "" "") "200" eq_refl))) "" "" eq_refl). rewrite (U d I D), HE. reflexivity. }
  destruct (C71_roundtrip J name f EJn NJ) as (J' & E' & A & B & C). exists J'. split; [exact E'|]. intros g k.
  destruct (in_dec (fun a b : string * string => ltac:(decide equality; apply string_dec)) (g, k) kept) as [K|K].
  { destruct (W g k K) as (t & T & V). rewrite V. apply (A g k _ K V T). }
  destruct (string_dec g "") as [->|G].
  - destruct (string_dec k "") as [->|K0].
    + rewrite VE. destruct (document_ok J EJn) as (d' & D'). destruct (loaded J d' D' EJn NJ) as (J2 & E2 & EJ2). unfold save_taz in E'. rewrite D' in E'. cbn [fst] in E'. unfold load_taz, write in E'. rewrite String.eqb_refl in E'. cbn [f_extra f_doc Nat.leb] in E'. rewrite E2 in E'. apply Ok_inj in E'. rewrite <- E', EJ2. rewrite (proj2 (proj2 (proj2 (row_spec (At "" "") "use_guide" (At "" "") "200" eq_refl))) "" "" eq_refl). rewrite (U d' J D'), VE. reflexivity.
    + destruct (in_dec string_dec k (map fst partly)) as [Q|Q].
      * apply in_map_iff in Q. destruct Q as ([k' n] & Ek & Q). cbn in Ek. subst k'. rewrite (B k n _ _ Q (P k n Q) eq_refl), (P k n Q). do 2 f_equal. unfold lastn. rewrite map_length, numbers_of_length, Nat.sub_diag by assumption. cbn [skipn]. rewrite map_map. apply map_ext. apply refloat_idem.
      * rewrite (C "" k K) by (try congruence; intros _; exact Q). subst J. rewrite other_row by (try assumption; congruence). unfold put. cbn [val]. cbn in Q. destruct (String.eqb_spec k "arms"); [subst; tauto|]. destruct (String.eqb_spec k "vcol"); [subst; tauto|]. destruct (String.eqb_spec k "hcol"); [subst; tauto|]. reflexivity.
  - rewrite (C g k K) by (try congruence; intros; contradiction). subst J. rewrite other_row by (try assumption; congruence). unfold put. cbn [val]. destruct (String.eqb_spec g ""); [contradiction|reflexivity].
Qed.
Print Assumptions C71_again.
(** C71.  A document without one of the elements is refused; nothing is taken from a new instrument instead.  A missing file is refused as well. *)
Theorem C71_missing : forall name f, (f name = None -> load_taz name f = Err OSError) /\
  (forall t e g, f name = Some t -> (f_extra t <= 1)%nat -> In (e, g) taz_keys -> (forall s, ~ In (e, s) (f_doc t)) -> load_taz name f = Err AttributeError).
Proof.
  intros name f. split; [intros E; unfold load_taz; rewrite E; reflexivity|]. intros t e g E X K N. unfold load_taz. rewrite E, (proj2 (Nat.leb_le _ _) X). unfold instrument_of.
  assert (A : forall l, In (e, g) l -> map_res (fun '(e, t0) => bind (found (f_doc t) e) (fun s => Ok (t0, s))) l = Err AttributeError).
  { induction l as [|[e' g'] l IH]; intros I; [contradiction|]. cbn [map_res]. destruct (found (f_doc t) e') as [s|x] eqn:F.
    - destruct I as [I|I]; [|cbn [bind]; rewrite (IH I); reflexivity]. injection I as -> ->. unfold found in F. destruct (find _ (f_doc t)) as [[e'' s']|] eqn:Q; [|discriminate]. apply find_some in Q. destruct Q as [Q1 Q2]. apply String.eqb_eq in Q2. subst. destruct (N _ Q1).
    - unfold found in F. destruct (find _ (f_doc t)) as [[? ?]|]; [discriminate|]. injection F as <-. reflexivity. }
  rewrite (A _ K). reflexivity.
Qed.
Print Assumptions C71_missing.
Example C71_missing_case : load_taz "x.taz" (fun n => if String.eqb n "x.taz" then Some (mkTaz [] 1) else None) = Err AttributeError /\ load_taz "y.taz" (fun n => if String.eqb n "x.taz" then Some (mkTaz [] 1) else None) = Err OSError.
Proof. split; [|apply C71_missing; reflexivity]. eapply (proj2 (C71_missing _ _)); [reflexivity|cbn; auto|left; reflexivity|intros s []]. Qed.

(** Without overwriting, the file has to be there, and it becomes unreadable if it held more text than is written now. *)
Theorem C71_over : forall I name f d, document_of I = Ok d ->
  (f (name ++ ".taz") = None -> save_taz I name false f = (f, Err OSError)) /\
  (forall old, f (name ++ ".taz") = Some old -> snd (save_taz I name false f) = Ok tt /\
    (size (f_doc old) + f_extra old <= size d + 1 -> load_taz (name ++ ".taz") (fst (save_taz I name false f)) = load_taz (name ++ ".taz") (fst (save_taz I name true f))) /\
    (size d + 1 < size (f_doc old) + f_extra old -> load_taz (name ++ ".taz") (fst (save_taz I name false f)) = Err GenericException)).
Proof.
  intros I name f d D. unfold save_taz. rewrite D. split; [intros ->; reflexivity|]. intros old ->. split; [reflexivity|]. cbn [fst]. unfold load_taz, write. rewrite String.eqb_refl. cbn [f_extra f_doc].
  split; intros L.
  - destruct (Nat.leb_spec (size (f_doc old) + f_extra old - size d) 1); [reflexivity|lia].
  - destruct (Nat.leb_spec (size (f_doc old) + f_extra old - size d) 1); [lia|reflexivity].
Qed.
Print Assumptions C71_over.

(** ** Examples *)
(** A new instrument: the spacings are those of PG(002). *)
Definition new_instrument : inst := put (put default "mono" "d" (Num "3.354")) "ana" "d" (Num "3.354").
Example C71_new : enough new_instrument /\ numeric new_instrument /\ val new_instrument "" "" = None /\ forall g k v, In (g, k) kept -> val new_instrument g k = Some v -> text v <> "".
Proof.
  split; [|split; [|split; [reflexivity|]]].
  - intros k n v P V. cbn in P. destruct P as [P|[P|[P|[]]]]; injection P as <- <-; vm_compute in V; try discriminate; injection V as <-; (eexists; split; [reflexivity|cbn; lia]).
  - intros k n v l P V E. cbn in P. destruct P as [P|[P|[P|[]]]]; injection P as <- <-; vm_compute in V; try discriminate; injection V as <-; injection E as <-; repeat constructor.
  - intros g k v K V. assert (C : forallb (fun p => match val new_instrument (fst p) (snd p) with Some v => negb (String.eqb (text v) "") | None => true end) kept = true) by (vm_compute; reflexivity).
    rewrite forallb_forall in C. specialize (C _ K). cbn [fst snd] in C. rewrite V in C. destruct (String.eqb_spec (text v) ""); [discriminate|assumption].
Qed.
(** Saved and loaded, it has another fixed energy only if it was changed, a text for its mosaic, and arms it did not have. *)
Example C71_example : exists J, load_taz "x.taz" (fst (save_taz (put new_instrument "" "efixed" (Num "5.0")) "x" true (fun _ => None))) = Ok J /\
  val J "" "efixed" = Some (Num "14.7") /\ val J "mono" "mosaic" = Some (Text "25") /\ val J "" "hcol" = Some (Lst ["40.0"; "40.0"; "40.0"; "40.0"]) /\ val J "ana" "width" = Some (Text "10000.0").
Proof. eexists. split; [vm_compute; reflexivity|]. repeat split; vm_compute; reflexivity. Qed.
Example C71_short_example : let I := put new_instrument "" "arms" (Lst ["150"; "150"; "150"; "150"]) in
  (forall k n v, In (k, n) partly -> val I "" k = Some v -> elements v <> None) /\ exists k n v l, In (k, n) partly /\ val I "" k = Some v /\ elements v = Some l /\ List.length l < n.
Proof.
  cbv zeta. split.
  - intros k n v P V. cbn in P. destruct P as [P|[P|[P|[]]]]; injection P as <- <-; vm_compute in V; injection V as <-; discriminate.
  - exists "arms", 5. do 2 eexists. split; [cbn; tauto|]. split; [reflexivity|]. split; [reflexivity|cbn; lia].
Qed.
(** The naive expectation about saving twice fails: a shorter document over a longer one. *)
Theorem C71_over_refuted : exists I I' f, snd (save_taz I "x" true f) = Ok tt /\ (exists J, load_taz "x.taz" (fst (save_taz I "x" true f)) = Ok J) /\
  let f' := fst (save_taz I "x" true f) in snd (save_taz I' "x" false f') = Ok tt /\ forall J, load_taz "x.taz" (fst (save_taz I' "x" false f')) <> Ok J.
Proof.
  exists (put new_instrument "mono" "width" (Num "12.5")), new_instrument, (fun _ => None). split; [vm_compute; reflexivity|]. split; [eexists; vm_compute; reflexivity|]. cbv zeta. split; [vm_compute; reflexivity|]. intros J. vm_compute. discriminate.
Qed.
Print Assumptions C71_over_refuted.

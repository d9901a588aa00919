(** C74: grids of DCS_MSLICE. *)
From Coq Require Import String Ascii List Arith Bool QArith Lia.
From Verif Require Import Base TextModel LoadersModel GridModel.
Import ListNotations.
Local Open Scope string_scope.

(** The numbers in a line of text. *)
Definition numbers (num : string -> option Q) (l : string) (row : list Q) : Prop := Forall2 (fun w q => num w = Some q) (words l) row.

(** *** Lemmas *)
Lemma floats_ok num ws row : Forall2 (fun w q => num w = Some q) ws row -> floats num ws = Ok row.
Proof. intros H. induction H as [|w q ws row E H IH]; [reflexivity|]. unfold floats in *. cbn [map_res]. unfold float at 1. rewrite E. cbn [bind]. rewrite IH. reflexivity. Qed.
Lemma forall2_len {A B} (R : A -> B -> Prop) a b : Forall2 R a b -> List.length a = List.length b.
Proof. intros H. induction H; simpl; congruence. Qed.
Lemma numbers_concat num ls rows : Forall2 (numbers num) ls rows -> Forall2 (fun w q => num w = Some q) (List.concat (map words ls)) (List.concat rows).
Proof. intros H. induction H; [constructor|]. cbn [map List.concat]. apply Forall2_app; assumption. Qed.
Lemma array2_ok num ls rows n : Forall2 (numbers num) ls rows -> (forall r, In r rows -> List.length r = n) -> ls <> [] ->
  array2 num (map words ls) = Ok (mkArr [List.length rows; n] (List.concat rows)).
Proof.
  intros H L N. pose proof (numbers_concat num ls rows H) as C. pose proof (forall2_len _ _ _ H) as LN.
  assert (W : forall l, In l ls -> List.length (words l) = n).
  { revert L. clear - H. induction H as [|l r ls rows X H IH]; intros L; [contradiction|]. intros k [<-|I].
    - rewrite (forall2_len _ _ _ X). apply L. left. reflexivity.
    - apply IH; [intros; apply L; right; assumption|exact I]. }
  destruct ls as [|l ls]; [contradiction|]. unfold array2. cbn [map].
  change (words l :: map words ls) with (map words (l :: ls)). rewrite (W l (or_introl eq_refl)).
  replace (forallb (fun s => Nat.eqb (List.length s) n) (map words (l :: ls))) with true.
  2: { symmetry. apply forallb_forall. intros s I. apply in_map_iff in I. destruct I as [k [<- I]]. rewrite (W k I). apply Nat.eqb_refl. }
  rewrite (floats_ok num _ _ C). cbn [bind]. rewrite map_length, LN. reflexivity.
Qed.
Lemma concat_singles {A} (l : list A) : List.concat (map (fun a => [a]) l) = l.
Proof. induction l; [reflexivity|]. cbn. rewrite IHl. reflexivity. Qed.
Lemma slice_mid {A} (a b c : list A) : slice (List.length a) (List.length a + List.length b) (List.app a (List.app b c)) = b.
Proof.
  unfold slice. rewrite skipn_app, skipn_all, Nat.sub_diag. cbn [skipn List.app].
  replace (List.length a + List.length b - List.length a)%nat with (List.length b) by lia. rewrite firstn_app, firstn_all, Nat.sub_diag. cbn [firstn]. apply app_nil_r.
Qed.
Lemma slice_at {A} (l a b c : list A) i j : l = List.app a (List.app b c) -> i = List.length a -> j = (i + List.length b)%nat -> slice i j l = b.
Proof. intros -> -> ->. apply slice_mid. Qed.
Lemma concat_len {A} (l : list (list A)) n : (forall r, In r l -> List.length r = n) -> List.length (List.concat l) = (List.length l * n)%nat.
Proof. intros H. induction l as [|a r IH]; [reflexivity|]. cbn. rewrite app_length, IH by (intros; apply H; right; assumption). rewrite (H a (or_introl eq_refl)). reflexivity. Qed.
Lemma concat_nth {A} (l : list (list A)) n d : (forall r, In r l -> List.length r = n) -> forall r c, (r < List.length l)%nat -> (c < n)%nat -> nth (r * n + c) (List.concat l) d = nth c (nth r l []) d.
Proof.
  intros H. induction l as [|a t IH]; intros r c R C; [simpl in R; lia|]. cbn [List.concat].
  assert (La : List.length a = n) by (apply H; left; reflexivity).
  destruct r as [|r].
  - cbn [Nat.mul Nat.add nth]. apply app_nth1. lia.
  - cbn [nth]. rewrite app_nth2 by (cbn [Nat.mul]; lia). rewrite La. replace (S r * n + c - n)%nat with (r * n + c)%nat by (cbn [Nat.mul]; lia).
    apply IH; [intros; apply H; right; assumption| simpl in R; lia|exact C].
Qed.
Lemma nth_repeat' {A} (x d : A) n r : (r < n)%nat -> nth r (repeat x n) d = x.
Proof. revert r. induction n as [|n IH]; intros r L; [lia|]. destruct r; [reflexivity|]. cbn. apply IH. lia. Qed.
Lemma mesh_nth x n r c : (r < n)%nat -> (c < List.length x)%nat -> nth (r * List.length x + c) (mesh_x x n) 0%Q = nth c x 0%Q.
Proof.
  intros R C. unfold mesh_x. rewrite concat_nth with (n := List.length x).
  - rewrite nth_repeat' by exact R. reflexivity.
  - intros s I. apply repeat_spec in I. subst. reflexivity.
  - rewrite repeat_length. exact R.
  - exact C.
Qed.
Lemma mesh_len x n : List.length (mesh_x x n) = (n * List.length x)%nat.
Proof. unfold mesh_x. rewrite concat_len with (n := List.length x); [rewrite repeat_length; reflexivity|]. intros s I. apply repeat_spec in I. subst. reflexivity. Qed.

(** *** XYIE *)
(** A file: the sizes, a line, the x values, a line, the y values, a line, the intensities, a line, the errors. *)
Definition xyie_file (head s0 : string) (xs : list string) (s1 : string) (ys : list string) (s2 : string) (is : list string) (s3 : string) (es rest : list string) : list string :=
  head :: s0 :: List.app xs (s1 :: List.app ys (s2 :: List.app is (s3 :: List.app es rest))).
Record xyie_ok (num : string -> option Q) (int : string -> option nat) (head : string) (xs ys is es : list string) (X Y : list Q) (I E : list (list Q)) : Prop := {
  ok_head : exists a b, words head = [a; b] /\ int a = Some (List.length X) /\ int b = Some (List.length Y);
  ok_x : Forall2 (fun l q => numbers num l [q]) xs X; ok_y : Forall2 (fun l q => numbers num l [q]) ys Y;
  ok_i : Forall2 (numbers num) is I; ok_e : Forall2 (numbers num) es E;
  ok_I : List.length I = List.length Y /\ (forall r, In r I -> List.length r = List.length X);
  ok_E : List.length E = List.length Y /\ (forall r, In r E -> List.length r = List.length X);
  ok_sizes : (2 <= List.length X)%nat /\ (2 <= List.length Y)%nat }.

Lemma singles num ls X : Forall2 (fun l q => numbers num l [q]) ls X -> Forall2 (numbers num) ls (map (fun q => [q]) X).
Proof. intros H. induction H; constructor; assumption. Qed.
Lemma array_singles num ls X : Forall2 (fun l q => numbers num l [q]) ls X -> (2 <= List.length X)%nat ->
  exists a, array2 num (map words ls) = Ok a /\ squeeze a = mkArr [List.length X] X.
Proof.
  intros H L. exists (mkArr [List.length X; 1%nat] X). split.
  - rewrite (array2_ok num ls _ 1 (singles num ls X H)).
    + rewrite map_length, concat_singles. reflexivity.
    + intros r I. apply in_map_iff in I. destruct I as [q [<- _]]. reflexivity.
    + intros ->. inversion H; subst. simpl in L. lia.
  - unfold squeeze. cbn [dims vals filter]. destruct (Nat.eqb (List.length X) 1) eqn:E; [apply Nat.eqb_eq in E; lia|]. reflexivity.
Qed.
Lemma dims_refl a : dims_eqb a a = true.
Proof. unfold dims_eqb. destruct (list_eq_dec Nat.eq_dec a a); [reflexivity|contradiction]. Qed.
Local Ltac norm := repeat first [progress cbn [map List.app]|rewrite map_app|rewrite <- app_assoc]; reflexivity.
Lemma xyie_loads num int head s0 xs s1 ys s2 is s3 es rest X Y I E : xyie_ok num int head xs ys is es X Y I E ->
  load_xyie num int (xyie_file head s0 xs s1 ys s2 is s3 es rest)
  = Ok (mkGrid (List.concat I) (List.concat E) (mesh_x X (List.length Y)) (Some (mesh_x X (List.length Y))) (ones (List.length Y)) (ones (List.length Y)) (mkArr [List.length Y; List.length X] (List.concat E))).
Proof.
  intros [[a [b [W [IA IB]]]] HX HY HI HE [LI CI] [LE CE] [NX NY]]. unfold load_xyie, xyie_file. cbn [map]. rewrite W. unfold sizes. cbn [map_res]. rewrite IA. cbn [bind]. rewrite IB. cbn [bind].
  set (nx := List.length X) in *. set (ny := List.length Y) in *.
  pose proof (forall2_len _ _ _ HX) as lx. pose proof (forall2_len _ _ _ HY) as ly. pose proof (forall2_len _ _ _ HI) as li. pose proof (forall2_len _ _ _ HE) as le.
  fold nx in lx. fold ny in ly.
  set (data := [a; b] :: words s0 :: map words (List.app xs (s1 :: List.app ys (s2 :: List.app is (s3 :: List.app es rest))))).
  assert (S1 : slice 2 (2 + nx) data = map words xs).
  { apply (slice_at data [[a; b]; words s0] (map words xs) (map words (s1 :: List.app ys (s2 :: List.app is (s3 :: List.app es rest))))); [unfold data; rewrite map_app; reflexivity|reflexivity|rewrite map_length; lia]. }
  assert (S2 : slice (3 + nx) (3 + nx + ny) data = map words ys).
  { apply (slice_at data (List.app [[a; b]; words s0] (map words (List.app xs [s1]))) (map words ys) (map words (s2 :: List.app is (s3 :: List.app es rest)))).
    - unfold data. norm.
    - rewrite app_length, map_length, app_length. cbn [List.length]. lia.
    - rewrite map_length. lia. }
  assert (S3 : slice (4 + (nx + ny)) (4 + (nx + ny) + ny) data = map words is).
  { apply (slice_at data (List.app [[a; b]; words s0] (map words (List.app xs (s1 :: List.app ys [s2])))) (map words is) (map words (s3 :: List.app es rest))).
    - unfold data. norm.
    - rewrite app_length, map_length, app_length. cbn [List.length]. rewrite app_length. cbn [List.length]. lia.
    - rewrite map_length. lia. }
  assert (S4 : slice (5 + (nx + ny) + ny) (5 + (nx + ny) + 2 * ny) data = map words es).
  { apply (slice_at data (List.app [[a; b]; words s0] (map words (List.app xs (s1 :: List.app ys (s2 :: List.app is [s3]))))) (map words es) (map words rest)).
    - unfold data. norm.
    - rewrite app_length, map_length, app_length. cbn [List.length]. rewrite app_length. cbn [List.length]. rewrite app_length. cbn [List.length]. lia.
    - rewrite map_length. lia. }
  rewrite S1, S2, S3, S4. clear S1 S2 S3 S4.
  destruct (array_singles num xs X HX NX) as [ax [-> QX]]. destruct (array_singles num ys Y HY NY) as [ay [-> QY]].
  rewrite (array2_ok num is I nx HI CI) by (intros ->; simpl in li; lia).
  rewrite (array2_ok num es E nx HE CE) by (intros ->; simpl in le; lia). cbn [bind]. rewrite QX, QY. unfold len0. cbn [dims bind].
  fold nx ny. rewrite !Nat.eqb_refl. cbn [negb andb List.rev List.app]. rewrite LI, LE. fold ny. rewrite !dims_refl. cbn [andb].
  unfold size. cbn [vals hd]. reflexivity.
Qed.

Theorem C74_xyie : forall num int head s0 xs s1 ys s2 is s3 es rest X Y I E, xyie_ok num int head xs ys is es X Y I E ->
  exists d, load_xyie num int (xyie_file head s0 xs s1 ys s2 is s3 es rest) = Ok d
    /\ List.length (intensity d) = (List.length Y * List.length X)%nat /\ List.length (error d) = List.length (intensity d) /\ List.length (xcol d) = List.length (intensity d)
    /\ (forall r c, (r < List.length Y)%nat -> (c < List.length X)%nat ->
         let p := (r * List.length X + c)%nat in
         nth p (intensity d) 0%Q = nth c (nth r I []) 0%Q /\ nth p (error d) 0%Q = nth c (nth r E []) 0%Q /\ nth p (xcol d) 0%Q = nth c X 0%Q)
    /\ dims (err d) = [List.length Y; List.length X] /\ monitor d = repeat 1%Q (List.length Y) /\ time d = repeat 1%Q (List.length Y).
Proof.
  intros num int head s0 xs s1 ys s2 is s3 es rest X Y I E H. pose proof (xyie_loads num int head s0 xs s1 ys s2 is s3 es rest X Y I E H) as L.
  destruct H as [_ _ _ _ _ [LI CI] [LE CE] [NX NY]]. eexists. split; [exact L|]. cbn [intensity error xcol err monitor time dims].
  rewrite (concat_len I _ CI), (concat_len E _ CE), mesh_len, LI, LE. repeat split.
  - apply concat_nth; [exact CI|lia|assumption].
  - apply concat_nth; [exact CE|lia|assumption].
  - apply mesh_nth; assumption.
Qed.
Print Assumptions C74_xyie.

(** The y values of the file are in no column: files that differ in them give the same dataset. *)
Theorem C74_y_lost : forall num int head s0 xs s1 ys ys' s2 is s3 es rest X Y Y' I E,
  xyie_ok num int head xs ys is es X Y I E -> xyie_ok num int head xs ys' is es X Y' I E ->
  load_xyie num int (xyie_file head s0 xs s1 ys s2 is s3 es rest) = load_xyie num int (xyie_file head s0 xs s1 ys' s2 is s3 es rest).
Proof.
  intros num int head s0 xs s1 ys ys' s2 is s3 es rest X Y Y' I E H H'.
  rewrite (xyie_loads num int head s0 xs s1 ys s2 is s3 es rest X Y I E H), (xyie_loads num int head s0 xs s1 ys' s2 is s3 es rest X Y' I E H').
  destruct (ok_I _ _ _ _ _ _ _ _ _ _ _ H) as [L _]. destruct (ok_I _ _ _ _ _ _ _ _ _ _ _ H') as [L' _]. rewrite <- L, <- L'. reflexivity.
Qed.
Print Assumptions C74_y_lost.

(** *** The intensity of grids *)
Lemma map_res_len {A B} (f : A -> res B) l v : map_res f l = Ok v -> List.length v = List.length l.
Proof.
  revert v. induction l as [|a r IH]; intros v H; cbn [map_res] in H; [injection H as <-; reflexivity|].
  destruct (f a); cbn [bind] in H; [|discriminate]. destruct (map_res f r) eqn:E; cbn [bind] in H; [|discriminate]. injection H as <-.
  cbn [List.length]. f_equal. apply IH. reflexivity.
Qed.
Lemma array2_size num rs a : array2 num rs = Ok a -> exists m n, (dims a = [m; n] \/ (dims a = [0%nat] /\ m = 0%nat)) /\ List.length (vals a) = (m * n)%nat.
Proof.
  unfold array2. destruct rs as [|r t]; [intros H; injection H as <-; exists 0%nat, 0%nat; auto|].
  set (rs := r :: t). intros H. destruct (forallb _ rs) eqn:F; [|discriminate]. destruct (floats num (List.concat rs)) as [v|] eqn:E; cbn [bind] in H; [|discriminate].
  injection H as <-. exists (List.length rs), (List.length r). split; [left; reflexivity|]. cbn [vals].
  unfold floats in E. rewrite (map_res_len _ _ _ E). apply concat_len. rewrite forallb_forall in F. intros s I. apply Nat.eqb_eq. apply F. exact I.
Qed.
Lemma len0_squeeze a n : len0 (squeeze a) = Ok n -> n <> 1%nat.
Proof.
  unfold len0, squeeze. cbn [dims]. destruct (filter _ (dims a)) as [|m r] eqn:F; [discriminate|]. intros H. injection H as ->.
  assert (I : In n (filter (fun n => negb (Nat.eqb n 1)) (dims a))) by (rewrite F; left; reflexivity). apply filter_In in I. destruct I as [_ I].
  intros ->. discriminate I.
Qed.
Lemma ones_len n : List.length (ones n) = n. Proof. apply repeat_length. Qed.
Lemma no_intensity d m n : List.length (intensity d) = (m * n)%nat -> monitor d = ones m -> (2 <= m)%nat -> (2 <= n)%nat -> get_intensity d = Err ValueError.
Proof.
  intros L M HM HN. unfold get_intensity, over_monitor. rewrite M. destruct (ones m) as [|o r] eqn:O; [reflexivity|]. rewrite <- O, ones_len.
  cbn [dims List.rev List.app broadcast]. rewrite L. rewrite (proj2 (Nat.eqb_neq (m * n) m)) by nia.
  rewrite (proj2 (Nat.eqb_neq (m * n) 1)) by nia. rewrite (proj2 (Nat.eqb_neq m 1)) by lia. reflexivity.
Qed.
Lemma dims_eqb_true a b : dims_eqb a b = true -> a = b.
Proof. unfold dims_eqb. destruct (list_eq_dec Nat.eq_dec a b); [auto|discriminate]. Qed.
Lemma xyie_shape num int file d : load_xyie num int file = Ok d ->
  exists m n, dims (err d) = [m; n] /\ m <> 1%nat /\ n <> 1%nat /\ List.length (intensity d) = (m * n)%nat /\ monitor d = ones m /\ ycol d = Some (xcol d) /\ vals (err d) = error d.
Proof.
  unfold load_xyie. destruct (map words file) as [|d0 t]; [discriminate|]. set (data := d0 :: t).
  destruct (sizes int d0) as [[nx ny]|]; cbn [bind]; [|discriminate].
  destruct (array2 num (slice 2 (2 + nx) data)) as [x|]; cbn [bind]; [|discriminate].
  destruct (array2 num (slice (3 + nx) (3 + nx + ny) data)) as [y|]; cbn [bind]; [|discriminate].
  destruct (array2 num (slice (4 + (nx + ny)) (4 + (nx + ny) + ny) data)) as [i|] eqn:AI; cbn [bind]; [|discriminate].
  destruct (array2 num (slice (5 + (nx + ny) + ny) (5 + (nx + ny) + 2 * ny) data)) as [e|]; cbn [bind]; [|discriminate].
  destruct (len0 (squeeze x)) as [lx|] eqn:LX; cbn [bind]; [|discriminate]. destruct (Nat.eqb lx nx) eqn:EX; cbn [negb]; [|discriminate].
  destruct (len0 (squeeze y)) as [ly|] eqn:LY; cbn [bind]; [|discriminate]. destruct (Nat.eqb ly ny) eqn:EY; cbn [andb]; [|discriminate].
  destruct (dims_eqb (List.rev (dims i)) [nx; ny]) eqn:DI; cbn [andb]; [|discriminate].
  destruct (dims_eqb (List.rev (dims e)) [nx; ny]) eqn:DE; cbn [andb]; [|discriminate].
  intros H. injection H as <-. apply Nat.eqb_eq in EX, EY. apply len0_squeeze in LX, LY. subst lx ly.
  apply dims_eqb_true in DI, DE. apply (f_equal (@List.rev nat)) in DI, DE. rewrite rev_involutive in DI, DE. cbn [List.rev List.app] in DI, DE.
  exists ny, nx. cbn [err intensity monitor ycol xcol error]. rewrite DE, DI. cbn [hd]. repeat split; auto.
  destruct (array2_size _ _ _ AI) as (m & n & [D|[D _]] & L); [|congruence]. rewrite DI in D. injection D as <- <-. exact L.
Qed.

(** The y column is a copy of the x column, and the intensity cannot be read, for every XYIE file that is loaded and has a point. *)
Theorem C74_unusable : forall num int file d, load_xyie num int file = Ok d ->
  ycol d = Some (xcol d) /\ (intensity d <> [] -> get_intensity d = Err ValueError).
Proof.
  intros num int file d H. destruct (xyie_shape _ _ _ _ H) as (m & n & E & M1 & N1 & L & M & Y & _). split; [exact Y|].
  intros NE. assert (m <> 0 /\ n <> 0)%nat as [M0 N0].
  { split; intros ->; rewrite ?Nat.mul_0_r in L; simpl in L; apply NE; apply length_zero_iff_nil; exact L. }
  apply (no_intensity d m n); auto; lia.
Qed.
Print Assumptions C74_unusable.
(** Its error can be read if the grid is a square only, as an array with rows and columns. *)
Theorem C74_error : forall num int file d m n, load_xyie num int file = Ok d -> dims (err d) = [m; n] -> (2 <= m)%nat -> (2 <= n)%nat ->
  (m = n -> get_error d = Ok ([m; n], Some (error d))) /\ (m <> n -> get_error d = Err ValueError).
Proof.
  intros num int file d m n H D HM HN. destruct (xyie_shape _ _ _ _ H) as (m' & n' & E & _ & _ & _ & M & _ & V).
  rewrite E in D. injection D as -> ->. unfold get_error, over_monitor. rewrite M. destruct (ones m) as [|o r] eqn:O.
  - apply (f_equal (@List.length Q)) in O. rewrite ones_len in O. simpl in O. lia.
  - rewrite <- O, ones_len, E. cbn [List.rev List.app broadcast]. split.
    + intros <-. rewrite Nat.eqb_refl. cbn [List.rev List.app]. rewrite dims_refl, V. reflexivity.
    + intros NE. rewrite (proj2 (Nat.eqb_neq n m)) by congruence. rewrite (proj2 (Nat.eqb_neq n 1)) by lia. rewrite (proj2 (Nat.eqb_neq m 1)) by lia. reflexivity.
Qed.
Print Assumptions C74_error.

(** *** SPE *)
Definition values (num : string -> option Q) (b : list (list string)) (v : list Q) : Prop := Forall2 (fun w q => num w = Some q) (List.concat b) v.
Fixpoint block_lines (bs : list (list (list string))) : list line :=
  match bs with [] => [] | [b] => map Vals b | b :: r => List.app (map Vals b) (Mark :: block_lines r) end.
Fixpoint interleave {A : Type} (a b : list A) : list A := match a, b with x :: a, y :: b => x :: y :: interleave a b | _, _ => [] end.
(** The sizes, a mark, lines of x values, a mark, lines of y values, a mark, and for every x a block of intensities and a block of errors. *)
Definition spe_lines (head : list string) (xl yl : list (list string)) (IB EB : list (list (list string))) : list line :=
  Vals head :: Mark :: List.app (map Vals xl) (Mark :: List.app (map Vals yl) (Mark :: block_lines (interleave IB EB))).
Record spe_ok (num : string -> option Q) (int : string -> option nat) (head : list string) (xl yl : list (list string)) (IB EB : list (list (list string))) (nx ny : nat) (X Y : list Q) (I E : list (list Q)) : Prop := {
  spe_head : exists a b, head = [a; b] /\ int a = Some nx /\ int b = Some ny;
  spe_x : values num xl X; spe_y : values num yl Y; spe_i : Forall2 (values num) IB I; spe_e : Forall2 (values num) EB E;
  spe_I : List.length I = nx /\ (forall v, In v I -> (ny <= List.length v)%nat); spe_E : List.length E = nx /\ (forall v, In v E -> (ny <= List.length v)%nat);
  spe_sizes : (2 <= nx)%nat /\ (2 <= ny)%nat /\ (nx <= List.length X)%nat /\ (ny <= List.length Y)%nat }.

Lemma collect_block n b r acc : collect (fun _ => false) n (List.app (map Vals b) (Mark :: r)) acc = (List.app acc (List.concat b), Some (n + List.length b + 1)%nat).
Proof.
  revert n acc. induction b as [|v b IH]; intros n acc; cbn [map List.app collect List.concat List.length].
  - rewrite app_nil_r. f_equal. f_equal. lia.
  - rewrite IH, <- app_assoc. f_equal. f_equal. lia.
Qed.
Lemma collect_last n b acc : collect (fun _ => false) n (map Vals b) acc = (List.app acc (List.concat b), None).
Proof.
  revert n acc. induction b as [|v b IH]; intros n acc; cbn [map List.app collect List.concat List.length]; [rewrite app_nil_r; reflexivity|].
  rewrite IH, <- app_assoc. reflexivity.
Qed.
Lemma vector_ok num b v n : values num b v -> List.length v <> 1%nat -> vector num (List.concat b) n = Ok (firstn n v).
Proof. intros H L. unfold vector. rewrite (floats_ok num _ _ H). cbn [bind]. destruct v as [|q [|q' r]]; [reflexivity|contradiction|reflexivity]. Qed.
Lemma blocks_ok num ny bs vs : Forall2 (values num) bs vs -> (forall v, In v vs -> List.length v <> 1%nat) ->
  forall count pre, (count <= List.length bs)%nat -> blocks num ny count (List.length pre) (List.app pre (block_lines bs)) = Ok (map (firstn ny) (firstn count vs)).
Proof.
  intros H. induction H as [|b v bs vs HB H IH]; intros L count pre C; (destruct count as [|k]; [reflexivity|]); [simpl in C; lia|].
  cbn [blocks]. rewrite skipn_app, skipn_all, Nat.sub_diag. cbn [skipn List.app].
  pose proof (vector_ok num b v ny HB (L v (or_introl eq_refl))) as V.
  destruct bs as [|b' bs].
  - inversion H; subst. cbn [block_lines]. rewrite collect_last. cbn [List.app]. rewrite V. cbn [bind].
    simpl in C. assert (k = 0%nat) by lia. subst k. reflexivity.
  - change (block_lines (b :: b' :: bs)) with (List.app (map Vals b) (Mark :: block_lines (b' :: bs))).
    rewrite collect_block. cbn [List.app]. rewrite V. cbn [bind].
    replace (List.app pre (List.app (map Vals b) (Mark :: block_lines (b' :: bs)))) with (List.app (List.app pre (List.app (map Vals b) [Mark])) (block_lines (b' :: bs))) by (rewrite <- !app_assoc; reflexivity).
    replace (List.length pre + List.length b + 1)%nat with (List.length (List.app pre (List.app (map Vals b) [Mark]))) by (rewrite !app_length, map_length; cbn [List.length]; lia).
    rewrite IH; [reflexivity|intros w J; apply L; right; exact J|simpl in C |- *; lia].
Qed.
Lemma concat_app_len (a : list (list string)) b : (List.length (List.concat a) <= List.length (List.concat (List.app a b)))%nat.
Proof. rewrite concat_app, app_length. lia. Qed.
Lemma collect_x nx n xl r acc : (forall a b c, xl = List.app a (b :: c) -> (List.length acc + List.length (List.concat a) < nx)%nat) ->
  collect (fun k => Nat.leb nx k) n (List.app (map Vals xl) (Mark :: r)) acc = (List.app acc (List.concat xl), Some (n + List.length xl + 1)%nat).
Proof.
  revert n acc. induction xl as [|v xl IH]; intros n acc H; cbn [map List.app collect List.concat List.length].
  - rewrite app_nil_r. f_equal. f_equal. lia.
  - pose proof (H [] v xl eq_refl) as H0. cbn [List.concat List.length] in H0. rewrite (proj2 (Nat.leb_gt _ _)) by lia.
    rewrite IH.
    + rewrite <- app_assoc. f_equal. f_equal. lia.
    + intros a b c E. specialize (H (v :: a) b c). rewrite E in H. specialize (H eq_refl). cbn [List.concat] in H. rewrite app_length in H. rewrite app_length. lia.
Qed.
Lemma prefix_short nx (xl : list (list string)) : (List.length (List.concat (removelast xl)) < nx)%nat -> forall a b c, xl = List.app a (b :: c) -> (List.length (List.concat a) < nx)%nat.
Proof.
  intros H a b c ->. rewrite removelast_app in H by discriminate. pose proof (concat_app_len a (removelast (b :: c))). lia.
Qed.
Lemma inter_vals num IB EB I E : Forall2 (values num) IB I -> Forall2 (values num) EB E -> Forall2 (values num) (interleave IB EB) (interleave I E).
Proof.
  intros H. revert EB E. induction H as [|b v IB I HB H IH]; intros EB E G; [constructor|]. destruct G as [|b' v' EB E HB' G]; [constructor|].
  cbn [interleave]. constructor; [exact HB|]. constructor; [exact HB'|]. apply IH. exact G.
Qed.
Lemma inter_len {A} (a b : list A) : List.length a = List.length b -> List.length (interleave a b) = (List.length a * 2)%nat.
Proof. revert b. induction a as [|x a IH]; intros [|y b] H; simpl in *; try lia. rewrite IH by lia. lia. Qed.
Lemma inter_in {A} (a b : list A) x : In x (interleave a b) -> In x a \/ In x b.
Proof. revert b. induction a as [|y a IH]; intros [|z b] H; simpl in *; try tauto. destruct H as [H|[H|H]]; auto. destruct (IH b H); auto. Qed.
Lemma inter_map {A B} (f : A -> B) a b : map f (interleave a b) = interleave (map f a) (map f b).
Proof. revert b. induction a as [|y a IH]; intros [|z b]; try reflexivity. cbn [interleave map]. rewrite IH. reflexivity. Qed.
Lemma evens_inter {A} (a b : list A) : List.length a = List.length b -> evens (interleave a b) = a.
Proof. revert b. induction a as [|y a IH]; intros [|z b] H; simpl in *; try lia; [reflexivity|]. rewrite IH by lia. reflexivity. Qed.
Lemma odds_inter {A} (a b : list A) : List.length a = List.length b -> odds (interleave a b) = b.
Proof.
  revert b. unfold odds. induction a as [|y a IH]; intros [|z b] H; simpl in *; try lia; [reflexivity|].
  specialize (IH b ltac:(lia)). destruct a as [|y' a], b as [|z' b]; simpl in *; try lia; [reflexivity|]. f_equal. exact IH.
Qed.
Lemma trans_ok (l : list (list Q)) n : l <> [] -> (forall v, In v l -> List.length v = n) ->
  exists a, transposed l = Ok a /\ dims a = [n; List.length l] /\ List.length (vals a) = (n * List.length l)%nat
    /\ forall r c, (r < n)%nat -> (c < List.length l)%nat -> nth (r * List.length l + c) (vals a) 0%Q = nth r (nth c l []) 0%Q.
Proof.
  intros N H. destruct l as [|v l]; [contradiction|]. unfold transposed. set (L := v :: l) in *. pose proof (H v (or_introl eq_refl)) as Hv. rewrite Hv.
  replace (forallb (fun w => Nat.eqb (List.length w) n) L) with true by (symmetry; apply forallb_forall; intros w I; apply Nat.eqb_eq; apply H; exact I).
  eexists. split; [reflexivity|]. cbn [dims vals].
  assert (R : forall r, In r (map (fun i => map (fun w => nth i w 0%Q) L) (seq 0 n)) -> List.length r = List.length L) by (intros r I; apply in_map_iff in I; destruct I as [i [<- _]]; apply map_length).
  split; [reflexivity|]. split; [rewrite (concat_len _ _ R), map_length, seq_length; reflexivity|].
  intros r c Hr Hc. rewrite (concat_nth _ (List.length L) 0%Q R) by (rewrite ?map_length, ?seq_length; assumption).
  rewrite nth_indep with (d' := map (fun w => nth 0 w 0%Q) L) by (rewrite map_length, seq_length; exact Hr).
  rewrite (map_nth (fun i => map (fun w => nth i w 0%Q) L) (seq 0 n) 0%nat r). rewrite seq_nth by exact Hr. cbn [Nat.add].
  rewrite nth_indep with (d' := nth r [] 0%Q) by (rewrite map_length; exact Hc). rewrite (map_nth (fun w => nth r w 0%Q) L [] c). reflexivity.
Qed.
Lemma firstn_nth {A} (l : list A) n r d : (r < n)%nat -> nth r (firstn n l) d = nth r l d.
Proof. revert n r. induction l as [|a l IH]; intros [|n] r H; try lia; [reflexivity|]. destruct r; [reflexivity|]. cbn. apply IH. lia. Qed.
Lemma map_firstn_len ny (l : list (list Q)) : (forall v, In v l -> (ny <= List.length v)%nat) -> forall v, In v (map (firstn ny) l) -> List.length v = ny.
Proof. intros H v I. apply in_map_iff in I. destruct I as [w [<- I]]. rewrite firstn_length. specialize (H w I). lia. Qed.
Lemma nth_map_firstn ny (l : list (list Q)) c r : (r < ny)%nat -> nth r (nth c (map (firstn ny) l) []) 0%Q = nth r (nth c l []) 0%Q.
Proof.
  intros R. destruct (Nat.lt_ge_cases c (List.length l)) as [L|L].
  - rewrite nth_indep with (d' := firstn ny []) by (rewrite map_length; exact L). rewrite map_nth. apply firstn_nth. exact R.
  - rewrite !nth_overflow with (n := c) by (rewrite ?map_length; lia). reflexivity.
Qed.
Lemma skip_pre {A} (a b : list A) n : n = List.length a -> skipn n (List.app a b) = b.
Proof. intros ->. rewrite skipn_app, skipn_all, Nat.sub_diag. reflexivity. Qed.

(** The dataset of a grid with intensities I and errors E for every x. *)
Definition holds_grid (d : grid) (nx ny : nat) (I E : list (list Q)) : Prop :=
  dims (err d) = [ny; nx] /\ List.length (intensity d) = (ny * nx)%nat /\ List.length (error d) = (ny * nx)%nat /\ monitor d = repeat 1%Q ny /\ time d = repeat 1%Q ny
  /\ forall r c, (r < ny)%nat -> (c < nx)%nat -> nth (r * nx + c) (intensity d) 0%Q = nth r (nth c I []) 0%Q /\ nth (r * nx + c) (error d) 0%Q = nth r (nth c E []) 0%Q.

Lemma finish_ok num nx ny data pre bs I E (X : list Q) : (2 <= nx)%nat -> (2 <= ny)%nat -> data = List.app pre (block_lines bs) ->
  (exists vs, Forall2 (values num) bs vs /\ (forall v, In v vs -> List.length v <> 1%nat) /\ (nx * 2 <= List.length bs)%nat /\ firstn (nx * 2) vs = interleave I E) ->
  List.length I = nx -> List.length E = nx -> (forall v, In v I -> (ny <= List.length v)%nat) -> (forall v, In v E -> (ny <= List.length v)%nat) ->
  exists d, bind (blocks num ny (nx * 2) (List.length pre) data) (fun bs => bind (transposed (evens bs)) (fun i => bind (transposed (odds bs)) (fun e =>
      Ok (mkGrid (vals i) (vals e) X (Some X) (ones (hd 0%nat (dims i))) (ones (hd 0%nat (dims i))) e)))) = Ok d
    /\ holds_grid d nx ny I E /\ xcol d = X /\ ycol d = Some X.
Proof.
  intros NX NY -> (vs & V & L1 & C & F) LI LE HI HE. rewrite (blocks_ok num ny bs vs V L1 (nx * 2) pre C). cbn [bind]. rewrite F, inter_map.
  rewrite evens_inter, odds_inter by (rewrite !map_length; congruence).
  destruct (trans_ok (map (firstn ny) I) ny) as (ai & -> & DI & NI & GI); [destruct I; [simpl in LI; lia|discriminate]|apply map_firstn_len; exact HI|].
  destruct (trans_ok (map (firstn ny) E) ny) as (ae & -> & DE & NE & GE); [destruct E; [simpl in LE; lia|discriminate]|apply map_firstn_len; exact HE|].
  rewrite map_length, ?LI, ?LE in *. cbn [bind]. eexists. split; [reflexivity|]. unfold holds_grid. cbn [err intensity error monitor time xcol ycol].
  rewrite DI. cbn [hd]. repeat split; auto.
  - rewrite (GI r c) by assumption. apply nth_map_firstn. assumption.
  - rewrite (GE r c) by assumption. apply nth_map_firstn. assumption.
Qed.

(** The x values fill no line but the last one too many, and there are less of them than y values wanted: the intensities, errors and x values
    are those of the file.  The y column is a copy of the x column. *)
Theorem C74_spe : forall num int file head xl yl IB EB nx ny X Y I E,
  map read_line file = spe_lines head xl yl IB EB -> spe_ok num int head xl yl IB EB nx ny X Y I E ->
  (List.length (List.concat (removelast xl)) < nx)%nat -> (List.length X < ny)%nat ->
  exists d, load_spe num int file = Ok d /\ holds_grid d nx ny I E /\ List.length (xcol d) = (ny * nx)%nat
    /\ (forall r c, (r < ny)%nat -> (c < nx)%nat -> nth (r * nx + c) (xcol d) 0%Q = nth c X 0%Q) /\ ycol d = Some (xcol d).
Proof.
  intros num int file head xl yl IB EB nx ny X Y I E F [[a [b [-> [IA IB0]]]] HX HY HI HE [LI CI] [LE CE] (NX & NY & NXX & NYY)] P P2.
  unfold load_spe. rewrite F. unfold spe_lines at 1. unfold sizes. cbn [map_res]. rewrite IA. cbn [bind]. rewrite IB0. cbn [bind].
  pose proof (forall2_len _ _ _ HX) as lx.
  unfold spe_lines at 1. cbn [skipn]. rewrite (collect_x nx 2 xl _ []) by (intros u v w EE; cbn [List.length Nat.add]; exact (prefix_short nx xl P u v w EE)).
  cbn [List.app]. rewrite lx. rewrite (proj2 (Nat.leb_gt ny _)) by exact P2.
  assert (SK : skipn (2 + List.length xl + 1) (spe_lines [a; b] xl yl IB EB) = List.app (map Vals yl) (Mark :: block_lines (interleave IB EB))).
  { unfold spe_lines. replace (Vals [a; b] :: Mark :: List.app (map Vals xl) (Mark :: List.app (map Vals yl) (Mark :: block_lines (interleave IB EB))))
      with (List.app (Vals [a; b] :: Mark :: List.app (map Vals xl) [Mark]) (List.app (map Vals yl) (Mark :: block_lines (interleave IB EB)))) by (cbn [List.app]; rewrite <- app_assoc; reflexivity).
    apply skip_pre. cbn [List.length]. rewrite app_length, map_length. cbn [List.length]. lia. }
  rewrite SK. rewrite collect_block. cbn [List.app].
  rewrite (vector_ok num xl X nx HX) by lia. rewrite (vector_ok num yl Y ny HY) by lia. cbn [bind].
  set (pre := Vals [a; b] :: Mark :: List.app (map Vals xl) (Mark :: List.app (map Vals yl) [Mark])).
  assert (PL : (2 + List.length xl + 1 + List.length yl + 1)%nat = List.length pre).
  { unfold pre. cbn [List.length]. rewrite app_length, map_length. cbn [List.length]. rewrite app_length, map_length. cbn [List.length]. lia. }
  rewrite PL.
  assert (NI : List.length IB = List.length EB) by (rewrite (forall2_len _ _ _ HI), (forall2_len _ _ _ HE); congruence).
  destruct (finish_ok num nx ny (spe_lines [a; b] xl yl IB EB) pre (interleave IB EB) I E (mesh_x (firstn nx X) (List.length (firstn ny Y)))) as (d & -> & G & XC & YC); auto.
  - unfold spe_lines, pre. cbn [List.app]. rewrite <- app_assoc. cbn [List.app]. rewrite <- app_assoc. reflexivity.
  - exists (interleave I E). split; [apply inter_vals; assumption|]. split.
    + intros v J. apply inter_in in J. destruct J as [J|J]; [specialize (CI v J)|specialize (CE v J)]; lia.
    + rewrite inter_len by exact NI. rewrite (forall2_len _ _ _ HI), LI. split; [lia|]. rewrite firstn_all2; [reflexivity|]. rewrite inter_len by congruence. lia.
  - exists d. split; [reflexivity|]. split; [exact G|]. rewrite XC, YC.
    assert (L2 : List.length (firstn ny Y) = ny) by (rewrite firstn_length; lia). assert (L1 : List.length (firstn nx X) = nx) by (rewrite firstn_length; lia).
    rewrite L2, mesh_len, L1. repeat split. intros r c Hr Hc. rewrite <- L1 at 1. rewrite mesh_nth by lia. apply firstn_nth. exact Hc.
Qed.
Print Assumptions C74_spe.

(** All the x values wanted are in the lines before the last line of x values, as when their number is a multiple of the numbers in a line
    and one more is written: the grid gets no x, the y values as first intensities, then the errors, and the intensities as errors. *)
Theorem C74_spe_swapped : forall num int file head xl last yl IB EB nx ny X Y I E,
  map read_line file = spe_lines head (List.app xl [last]) yl IB EB -> spe_ok num int head (List.app xl [last]) yl IB EB nx ny X Y I E ->
  (List.length (List.concat (removelast xl)) < nx <= List.length (List.concat xl))%nat ->
  exists d, load_spe num int file = Ok d /\ holds_grid d nx ny (Y :: removelast E) I /\ xcol d = [] /\ ycol d = Some [].
Proof.
  intros num int file head xl last yl IB EB nx ny X Y I E F [[a [b [-> [IA IB0]]]] HX HY HI HE [LI CI] [LE CE] (NX & NY & NXX & NYY)] [P P2].
  unfold load_spe. rewrite F. unfold spe_lines at 1. unfold sizes. cbn [map_res]. rewrite IA. cbn [bind]. rewrite IB0. cbn [bind].
  unfold spe_lines at 1. cbn [skipn].
  assert (CX : forall r, collect (fun k => Nat.leb nx k) 2 (List.app (map Vals (List.app xl [last])) (Mark :: r)) [] = (List.concat xl, Some (2 + List.length xl + 1)%nat)).
  { intros r. rewrite map_app, <- app_assoc. cbn [map List.app].
    assert (G : forall l n acc, (forall a b c, l = List.app a (b :: c) -> (List.length acc + List.length (List.concat a) < nx)%nat) -> (nx <= List.length acc + List.length (List.concat l))%nat ->
      collect (fun k => Nat.leb nx k) n (List.app (map Vals l) (Vals last :: Mark :: r)) acc = (List.app acc (List.concat l), Some (n + List.length l + 1)%nat)).
    { induction l as [|v l IH]; intros n acc H1 H2; cbn [map List.app collect List.concat List.length] in *.
      - rewrite (proj2 (Nat.leb_le _ _)) by lia. rewrite app_nil_r. f_equal. f_equal. lia.
      - pose proof (H1 [] v l eq_refl) as H0. cbn [List.concat List.length] in H0. rewrite (proj2 (Nat.leb_gt _ _)) by lia. rewrite IH.
        + rewrite <- app_assoc. f_equal. f_equal. lia.
        + intros u x c EE. specialize (H1 (v :: u) x c). rewrite EE in H1. specialize (H1 eq_refl). cbn [List.concat] in H1. rewrite app_length in H1. rewrite app_length. lia.
        + rewrite app_length in H2. rewrite app_length. lia. }
    apply (G xl 2%nat []); [intros u v w EE; cbn [List.length Nat.add]; exact (prefix_short nx xl P u v w EE)|exact P2]. }
  rewrite CX. 
  set (rest := Mark :: List.app (map Vals yl) (Mark :: block_lines (interleave IB EB))).
  assert (SK : skipn (2 + List.length xl + 1) (spe_lines [a; b] (List.app xl [last]) yl IB EB) = rest).
  { unfold spe_lines. fold rest. replace (Vals [a; b] :: Mark :: List.app (map Vals (List.app xl [last])) rest) with (List.app (Vals [a; b] :: Mark :: List.app (map Vals xl) [Vals last]) rest)
      by (cbn [List.app]; rewrite map_app; reflexivity).
    apply skip_pre. cbn [List.length]. rewrite app_length, map_length. cbn [List.length]. lia. }
  rewrite SK. unfold rest at 1. cbn [collect].
  unfold values in HX. rewrite concat_app in HX. apply Forall2_app_inv_l in HX. destruct HX as (X1 & X2 & HX1 & _ & EX).
  pose proof (forall2_len _ _ _ HX1) as lx.
  rewrite (vector_ok num xl X1 nx HX1) by lia. cbn [bind]. change (vector num [] ny) with (@Ok (list Q) (firstn ny [])). rewrite firstn_nil. cbn [bind List.length].
  change (mesh_x (firstn nx X1) 0) with (@nil Q).
  set (pre := Vals [a; b] :: Mark :: List.app (map Vals (List.app xl [last])) [Mark]).
  assert (PL : S (2 + List.length xl + 1) = List.length pre) by (unfold pre; cbn [List.length]; rewrite app_length, map_length, app_length; cbn [List.length]; lia).
  rewrite PL.
  assert (NI : List.length IB = List.length EB) by (rewrite (forall2_len _ _ _ HI), (forall2_len _ _ _ HE); congruence).
  assert (INE : interleave IB EB <> []) by (intros Z; apply (f_equal (@List.length _)) in Z; rewrite inter_len in Z by exact NI; rewrite (forall2_len _ _ _ HI) in Z; simpl in Z; lia).
  destruct (finish_ok num nx ny (spe_lines [a; b] (List.app xl [last]) yl IB EB) pre (yl :: interleave IB EB) (Y :: removelast E) I []) as (d & -> & G & XC & YC); auto.
  - unfold spe_lines, pre. cbn [List.app]. rewrite <- app_assoc. cbn [List.app]. f_equal. f_equal. f_equal. f_equal. destruct (interleave IB EB); [contradiction|reflexivity].
  - exists (Y :: interleave I E). split; [constructor; [exact HY|apply inter_vals; assumption]|]. split; [|split].
    + intros v [<-|J]; [lia|]. apply inter_in in J. destruct J as [J|J]; [specialize (CI v J)|specialize (CE v J)]; lia.
    + cbn [List.length]. rewrite inter_len by exact NI. rewrite (forall2_len _ _ _ HI), LI. lia.
    + assert (NE : E <> []) by (destruct E; [simpl in LE; lia|discriminate]).
      clear - LI LE NE. revert E nx LI LE NE Y. induction I as [|i I IH]; intros E nx LI LE NE Y; [simpl in LI; destruct E; [contradiction|simpl in LE; lia]|].
      destruct E as [|e E]; [contradiction|]. destruct nx as [|nx]; [discriminate|]. cbn [interleave Nat.mul Nat.add firstn].
      destruct E as [|e' E].
      * destruct I; [|simpl in *; lia]. destruct nx; [|simpl in *; lia]. reflexivity.
      * change (removelast (e :: e' :: E)) with (e :: removelast (e' :: E)). cbn [interleave]. f_equal. f_equal. apply (IH (e' :: E) nx); simpl in *; try lia. discriminate.
  - cbn [List.length]. rewrite removelast_firstn_len, firstn_length. rewrite LE. lia.
  - intros v [<-|J]; [exact NYY|]. apply CE. rewrite (app_removelast_last v) by (destruct E; [simpl in LE; lia|discriminate]). apply in_or_app. left. exact J.
  - exists d. auto.
Qed.
Print Assumptions C74_spe_swapped.

(** As many x values as y values are wanted, or more: the first line of y values is taken for a mark and the file is refused, because the
    y values that remain are less than a block (one is an error of its own). *)
Theorem C74_spe_refused : forall num int file head xl y0 yl IB EB nx ny X Y I E,
  map read_line file = spe_lines head xl (y0 :: yl) IB EB -> spe_ok num int head xl (y0 :: yl) IB EB nx ny X Y I E ->
  (List.length (List.concat (removelast xl)) < nx)%nat -> (ny <= List.length X)%nat -> (List.length (List.concat yl) < ny)%nat ->
  load_spe num int file = Err (if Nat.eqb (List.length (List.concat yl)) 1 then IndexError else ValueError).
Proof.
  intros num int file head xl y0 yl IB EB nx ny X Y I E F [[a [b [-> [IA IB0]]]] HX HY HI HE [LI CI] [LE CE] (NX & NY & NXX & NYY)] P P2 P3.
  unfold load_spe. rewrite F. unfold spe_lines at 1. unfold sizes. cbn [map_res]. rewrite IA. cbn [bind]. rewrite IB0. cbn [bind].
  pose proof (forall2_len _ _ _ HX) as lx.
  unfold spe_lines at 1. cbn [skipn]. rewrite (collect_x nx 2 xl _ []) by (intros u v w EE; cbn [List.length Nat.add]; exact (prefix_short nx xl P u v w EE)).
  cbn [List.app]. rewrite lx. rewrite (proj2 (Nat.leb_le ny _)) by exact P2.
  set (rest := List.app (map Vals yl) (Mark :: block_lines (interleave IB EB))).
  assert (SK : skipn (2 + List.length xl + 1) (spe_lines [a; b] xl (y0 :: yl) IB EB) = Vals y0 :: rest).
  { unfold spe_lines. cbn [map List.app]. fold rest. replace (Vals [a; b] :: Mark :: List.app (map Vals xl) (Mark :: Vals y0 :: rest))
      with (List.app (Vals [a; b] :: Mark :: List.app (map Vals xl) [Mark]) (Vals y0 :: rest)) by (cbn [List.app]; rewrite <- app_assoc; reflexivity).
    apply skip_pre. cbn [List.length]. rewrite app_length, map_length. cbn [List.length]. lia. }
  rewrite SK. cbn [collect]. rewrite (vector_ok num xl X nx HX) by lia. cbn [bind].
  change (vector num [] ny) with (@Ok (list Q) (firstn ny [])). rewrite firstn_nil. cbn [bind List.length].
  change (mesh_x (firstn nx X) 0) with (@nil Q).
  set (pre := Vals [a; b] :: Mark :: List.app (map Vals xl) [Mark; Vals y0]).
  assert (PL : S (2 + List.length xl + 1) = List.length pre) by (unfold pre; cbn [List.length]; rewrite app_length, map_length; cbn [List.length]; lia).
  rewrite PL.
  assert (NI : List.length IB = List.length EB) by (rewrite (forall2_len _ _ _ HI), (forall2_len _ _ _ HE); congruence).
  assert (INE : interleave IB EB <> []) by (intros Z; apply (f_equal (@List.length _)) in Z; rewrite inter_len in Z by exact NI; rewrite (forall2_len _ _ _ HI) in Z; simpl in Z; lia).
  assert (DE : spe_lines [a; b] xl (y0 :: yl) IB EB = List.app pre (block_lines (yl :: interleave IB EB))).
  { unfold spe_lines, pre. cbn [List.app map]. rewrite <- app_assoc. cbn [List.app]. do 5 f_equal. destruct (interleave IB EB); [contradiction|reflexivity]. }
  rewrite DE. unfold values in HY. cbn [List.concat] in HY. apply Forall2_app_inv_l in HY. destruct HY as (Y1 & Y2 & _ & HY2 & _).
  pose proof (forall2_len _ _ _ HY2) as ly. rewrite ly.
  destruct (Nat.eqb (List.length Y2) 1) eqn:ONE.
  - apply Nat.eqb_eq in ONE. replace (nx * 2)%nat with (S (nx * 2 - 1)) by lia. cbn [blocks]. rewrite skipn_app, skipn_all, Nat.sub_diag. cbn [skipn List.app].
    assert (CB : exists s, collect (fun _ => false) (List.length pre) (block_lines (yl :: interleave IB EB)) [] = (List.concat yl, s)).
    { destruct (interleave IB EB) as [|u w]; [contradiction|]. change (block_lines (yl :: u :: w)) with (List.app (map Vals yl) (Mark :: block_lines (u :: w))).
      rewrite collect_block. eexists. reflexivity. }
    destruct CB as (s & ->). unfold vector. rewrite (floats_ok num _ _ HY2). cbn [bind]. destruct Y2 as [|q [|q' r]]; try discriminate. reflexivity.
  - apply Nat.eqb_neq in ONE. rewrite (blocks_ok num ny (yl :: interleave IB EB) (Y2 :: interleave I E)).
    + cbn [bind]. destruct I as [|i0 I]; [simpl in LI; lia|]. destruct E as [|e0 E]; [simpl in LE; lia|].
      replace (nx * 2)%nat with (S (S (S (nx * 2 - 3)))) by lia. cbn [interleave firstn map].
      assert (LE0 : List.length (firstn ny e0) = ny) by (rewrite firstn_length; specialize (CE e0 (or_introl eq_refl)); lia).
      assert (LY : List.length (firstn ny Y2) = List.length Y2) by (rewrite firstn_length; lia).
      assert (EV : forall (u v w : list Q) l, exists t, evens (u :: v :: w :: l) = u :: w :: t) by (intros u v w [|l0 l]; eexists; reflexivity).
      destruct (EV (firstn ny Y2) (firstn ny i0) (firstn ny e0) (map (firstn ny) (firstn (nx * 2 - 3) (interleave I E)))) as (t & ->). unfold transposed. cbn [forallb]. rewrite LE0, LY, Nat.eqb_refl.
      rewrite (proj2 (Nat.eqb_neq ny (List.length Y2))) by lia. reflexivity.
    + constructor; [exact HY2|apply inter_vals; assumption].
    + intros v [<-|J]; [exact ONE|]. apply inter_in in J. destruct J as [J|J]; [specialize (CI v J)|specialize (CE v J)]; lia.
    + cbn [List.length]. rewrite inter_len by exact NI. rewrite (forall2_len _ _ _ HI), LI. lia.
Qed.
Print Assumptions C74_spe_refused.

(** The y column of an SPE file is a copy of the x column, and the intensity cannot be read if there are two x values or more (and two rows). *)
Lemma transposed_size l a : transposed l = Ok a -> l <> [] -> exists m, dims a = [m; List.length l] /\ List.length (vals a) = (m * List.length l)%nat.
Proof.
  unfold transposed. destruct l as [|v t]; [contradiction|]. set (L := v :: t). destruct (forallb _ L); [|discriminate].
  intros H _. injection H as <-. exists (List.length v). split; [reflexivity|]. cbn [vals].
  rewrite concat_len with (n := List.length L); [rewrite map_length, seq_length; reflexivity|]. intros r I. apply in_map_iff in I. destruct I as [i [<- _]]. exact (map_length (fun w => nth i w 0%Q) L).
Qed.
Lemma blocks_len num ny count : forall ln data bs, blocks num ny count ln data = Ok bs -> List.length bs = count.
Proof.
  induction count as [|k IH]; intros ln data bs H; cbn [blocks] in H; [injection H as <-; reflexivity|].
  destruct (collect _ ln (skipn ln data) []) as [b st]. destruct (vector num b ny); cbn [bind] in H; [|discriminate].
  destruct (blocks num ny k _ data) eqn:E; cbn [bind] in H; [|discriminate]. injection H as <-. cbn [List.length]. f_equal. exact (IH _ _ _ E).
Qed.
Lemma evens_len {A} n : forall l : list A, List.length l = (n * 2)%nat -> List.length (evens l) = n.
Proof. induction n as [|n IH]; intros l H; [destruct l; [reflexivity|discriminate]|]. destruct l as [|x [|y l]]; try discriminate. cbn [evens List.length]. f_equal. apply IH. simpl in H. lia. Qed.
Theorem C74_spe_unusable : forall num int file d a b nx, load_spe num int file = Ok d -> read_line (hd "" file) = Vals [a; b] -> int a = Some nx ->
  ycol d = Some (xcol d) /\ ((2 <= nx)%nat -> (2 <= List.length (monitor d))%nat -> get_intensity d = Err ValueError).
Proof.
  intros num int file d a b nx H R IA. destruct file as [|f0 file]; [discriminate|]. cbn [hd] in R. unfold load_spe in H. cbn [map] in H. rewrite R in H.
  set (data := Vals [a; b] :: map read_line file) in H. unfold sizes in H. cbn [map_res] in H. rewrite IA in H. cbn [bind] in H.
  destruct (int b) as [ny|]; cbn [bind] in H; [|discriminate].
  destruct (collect _ 2 (skipn 2 data) []) as [x [ln|]]; [|discriminate]. destruct (collect _ ln (skipn ln data) []) as [y st].
  destruct (vector num x nx) as [vx|]; cbn [bind] in H; [|discriminate]. destruct (vector num y ny) as [vy|]; cbn [bind] in H; [|discriminate].
  destruct (blocks _ _ _ _ _) as [bs|] eqn:B; cbn [bind] in H; [|discriminate]. destruct (transposed (evens bs)) as [i|] eqn:TI; cbn [bind] in H; [|discriminate].
  destruct (transposed (odds bs)) as [e|]; cbn [bind] in H; [|discriminate]. injection H as <-. split; [reflexivity|].
  intros NX NM. apply blocks_len in B. apply evens_len in B. destruct (transposed_size _ _ TI) as (m & D & L); [intros Z; rewrite Z in B; simpl in B; lia|].
  rewrite B in D, L. cbn [monitor] in NM. rewrite D in NM |- *. cbn [hd] in NM |- *. rewrite ones_len in NM. apply (no_intensity _ m nx); auto.
Qed.
Print Assumptions C74_spe_unusable.

(** *** Columns *)
Definition text_rows (file : list string) : list (list string) := filter (fun c => negb (Nat.eqb (List.length c) 0)) (map cells file).
Lemma rows_plain n file : (forall l, In l file -> cells l = [] \/ List.length (cells l) = n) -> text_rows file <> [] -> rows None 0 0 file = Ok (text_rows file).
Proof.
  intros R N.
  assert (G : forall ls k, (forall l, In l ls -> cells l = [] \/ List.length (cells l) = n) -> scan (take_all n) k ls = (text_rows ls, [])).
  { induction ls as [|l r IH]; intros k H; [reflexivity|]. cbn [scan]. rewrite (IH (S k)) by (intros; apply H; right; assumption).
    unfold text_rows. cbn [map filter]. unfold blank. destruct (H l (or_introl eq_refl)) as [E|E].
    - rewrite E. reflexivity.
    - destruct (cells l) as [|w c] eqn:C; [reflexivity|]. unfold take_all. rewrite E, Nat.eqb_refl.
      destruct n; [simpl in E; lia|]. reflexivity. }
  assert (D : text_rows (drop_blank file) = text_rows file /\ (forall l, In l (drop_blank file) -> In l file) /\ List.length (cells (hd "" (drop_blank file))) = n).
  { revert R N. clear G. induction file as [|l r IH]; intros R N; [contradiction|]. cbn [drop_blank]. unfold blank. destruct (cells l) as [|w c] eqn:C.
    - assert (T : text_rows (l :: r) = text_rows r) by (unfold text_rows; cbn [map filter]; rewrite C; reflexivity). rewrite T in N |- *.
      destruct IH as (A & B & H); [intros; apply R; right; assumption|exact N|]. repeat split; auto. intros x I. right. auto.
    - repeat split; auto. cbn [hd]. destruct (R l (or_introl eq_refl)) as [E|E]; [congruence|exact E]. }
  destruct D as (D1 & D2 & D3). unfold rows. cbn [skipn]. rewrite D3. rewrite G by (intros; apply R; apply D2; assumption).
  cbn [Nat.eqb]. rewrite D1, Nat.sub_0_r, firstn_all. reflexivity.
Qed.
Lemma map_res_ok {A B} (f : A -> res B) (g : A -> B) l : (forall x, In x l -> f x = Ok (g x)) -> map_res f l = Ok (map g l).
Proof.
  induction l as [|a r IH]; intros H; [reflexivity|]. cbn [map_res map]. rewrite (H a (or_introl eq_refl)). cbn [bind].
  rewrite IH by (intros; apply H; right; assumption). reflexivity.
Qed.
Lemma loadtxt_ok num n file : (2 <= n)%nat -> (forall l, In l file -> cells l = [] \/ List.length (cells l) = n) -> (2 <= List.length (text_rows file))%nat ->
  (forall r x, In r (text_rows file) -> In x r -> num x <> None) ->
  loadtxt num n file = Ok (map (fun j => map (fun r => match num (nth j r "") with Some q => q | None => 0%Q end) (text_rows file)) (seq 0 n)).
Proof.
  intros N R T F. unfold loadtxt. rewrite (rows_plain n file R) by (intros Z; rewrite Z in T; simpl in T; lia). cbn [bind].
  assert (L : forall r, In r (text_rows file) -> List.length r = n).
  { intros r I. unfold text_rows in I. apply filter_In in I. destruct I as [I Z]. apply in_map_iff in I. destruct I as [l [<- I]].
    destruct (R l I) as [E|E]; [rewrite E in Z; discriminate|exact E]. }
  set (rs := text_rows file) in *.
  assert (A : exists a, array2 num rs = Ok a).
  { unfold array2. destruct rs as [|r t]; [eexists; reflexivity|]. replace (forallb (fun s => Nat.eqb (List.length s) (List.length r)) (r :: t)) with true.
    2: { symmetry. apply forallb_forall. intros s I. rewrite (L s I), (L r (or_introl eq_refl)). apply Nat.eqb_refl. }
    unfold floats. rewrite (map_res_ok (float num) (fun x => match num x with Some q => q | None => 0%Q end)); [eexists; reflexivity|].
    intros x I. apply in_concat in I. destruct I as [s [I J]]. unfold float. specialize (F s x I J). destruct (num x); [reflexivity|contradiction]. }
  destruct A as [a ->]. cbn [bind]. destruct rs as [|r [|r' t]]; [simpl in T; lia|simpl in T; lia|].
  rewrite (L r (or_introl eq_refl)), Nat.eqb_refl. cbn [negb]. apply map_res_ok. intros j J. apply in_seq in J. set (rs := r :: r' :: t) in *. unfold floats.
  rewrite (map_res_ok (float num) (fun x => match num x with Some q => q | None => 0%Q end)).
  - rewrite map_map. reflexivity.
  - intros x I. apply in_map_iff in I. destruct I as [s [<- I]]. unfold float.
    assert (Z : num (nth j s "") <> None) by (apply (F s); [exact I|apply nth_In; rewrite (L s I); lia]). destruct (num (nth j s "")); [reflexivity|contradiction].
Qed.
(** Files with columns: every point of an IEXY file has its intensity, error, x and y, every point of an XYE file x, intensity and error, and
    the intensity and the error can be read. *)
Theorem C74_columns : forall num file (n := List.length (text_rows file)),
  (2 <= n)%nat -> (forall r x, In r (text_rows file) -> In x r -> num x <> None) ->
  let cell r j q := num (nth j (nth r (text_rows file) []) "") = Some q in
  ((forall l, In l file -> cells l = [] \/ List.length (cells l) = 4%nat) -> exists d, load_iexy num file = Ok d
    /\ (exists y, ycol d = Some y /\ List.length y = n /\ forall r, (r < n)%nat -> cell r 0%nat (nth r (intensity d) 0%Q) /\ cell r 1%nat (nth r (error d) 0%Q) /\ cell r 2%nat (nth r (xcol d) 0%Q) /\ cell r 3%nat (nth r y 0%Q))
    /\ get_intensity d = Ok ([n], Some (intensity d)) /\ get_error d = Ok ([n], Some (error d)))
  /\ ((forall l, In l file -> cells l = [] \/ List.length (cells l) = 3%nat) -> exists d, load_xye num file = Ok d
    /\ (ycol d = None /\ forall r, (r < n)%nat -> cell r 1%nat (nth r (intensity d) 0%Q) /\ cell r 2%nat (nth r (error d) 0%Q) /\ cell r 0%nat (nth r (xcol d) 0%Q))
    /\ get_intensity d = Ok ([n], Some (intensity d)) /\ get_error d = Ok ([n], Some (error d))).
Proof.
  intros num file n N F cell. set (rs := text_rows file) in *.
  set (val := fun x => match num x with Some q => q | None => 0%Q end).
  assert (C : forall k j r, (forall l, In l file -> cells l = [] \/ List.length (cells l) = k) -> (j < k)%nat -> (r < n)%nat -> cell r j (nth r (map (fun s => val (nth j s "")) rs) 0%Q)).
  { intros k j r R J H. unfold cell. rewrite nth_indep with (d' := val (nth j [] "")) by (rewrite map_length; exact H). rewrite (map_nth (fun s => val (nth j s "")) rs [] r).
    assert (I : In (nth r rs []) rs) by (apply nth_In; exact H).
    assert (L : List.length (nth r rs []) = k).
    { unfold rs, text_rows in I. apply filter_In in I. destruct I as [I Z]. apply in_map_iff in I. destruct I as [l [E I]]. fold rs in E. unfold rs, text_rows in *. rewrite <- E.
      destruct (R l I) as [E'|E']; [|exact E']. rewrite <- E, E' in Z. discriminate. }
    assert (Z : num (nth j (nth r rs []) "") <> None) by (apply (F (nth r rs [])); [exact I|apply nth_In; lia]). unfold val. destruct (num (nth j (nth r rs []) "")); [reflexivity|contradiction]. }
  assert (M : forall (g : list string -> Q) d a, monitor d = ones n -> over_monitor (mkArr [n] a) d = Ok ([n], Some a)).
  { intros g d a H. unfold over_monitor. rewrite H. destruct (ones n) as [|o t] eqn:O; [apply (f_equal (@List.length Q)) in O; rewrite ones_len in O; simpl in O; lia|].
    rewrite <- O, ones_len. cbn [dims List.rev List.app broadcast]. rewrite Nat.eqb_refl. cbn [List.rev List.app]. rewrite dims_refl. reflexivity. }
  split; intros R.
  - unfold load_iexy. rewrite (loadtxt_ok num 4 file) by (auto; lia). fold rs. cbn [bind map seq]. eexists. split; [reflexivity|]. cbn [ycol intensity error xcol].
    unfold get_intensity, get_error. cbn [intensity err error]. rewrite !map_length. fold n. split; [|split].
    + eexists. split; [reflexivity|]. split; [apply map_length|]. intros r H. repeat split; apply (C 4%nat); auto; lia.
    + apply (M (fun _ => 0%Q)). reflexivity.
    + apply (M (fun _ => 0%Q)). reflexivity.
  - unfold load_xye. rewrite (loadtxt_ok num 3 file) by (auto; lia). fold rs. cbn [bind map seq]. eexists. split; [reflexivity|]. cbn [ycol intensity error xcol].
    unfold get_intensity, get_error. cbn [intensity err error]. rewrite !map_length. fold n. split; [|split].
    + split; [reflexivity|]. intros r H. repeat split; apply (C 3%nat); auto; lia.
    + apply (M (fun _ => 0%Q)). reflexivity.
    + apply (M (fun _ => 0%Q)). reflexivity.
Qed.
Print Assumptions C74_columns.

(** *** Which of the four *)
(** By its content a file of two lines or more is never taken for XYIE: the name has to end in xyie, and the first line must not have four words. *)
Theorem C74_subtype : forall name file, (2 <= List.length file)%nat ->
  (subtype name file = Ok "xyie" <-> String.eqb (last_chars 4 name) "xyie" = true /\ List.length (words (hd "" file)) <> 4%nat).
Proof.
  intros name file L. assert (F : nth 0 file "" = hd "" file) by (destruct file; reflexivity). unfold subtype. rewrite F.
  assert (LE : Nat.leb (List.length file) 1 = false) by (apply Nat.leb_gt; lia). rewrite LE, andb_false_r, orb_false_r.
  destruct (Nat.eqb_spec (List.length (words (hd "" file))) 4) as [E|E].
  - rewrite orb_true_r. split; [discriminate|]. intros [_ N]. contradiction.
  - rewrite orb_false_r. destruct (String.eqb (last_chars 4 name) "iexy") eqn:A.
    + apply String.eqb_eq in A. rewrite A. split; [discriminate|]. intros [Z _]. discriminate Z.
    + destruct (String.eqb (last_chars 4 name) "xyie"); [split; [auto|reflexivity]|].
      destruct (String.eqb (last_chars 3 name) "spe" || _); [split; [discriminate|intros [Z _]; discriminate Z]|].
      destruct (String.eqb (last_chars 3 name) "xye" || _); split; try discriminate; intros [Z _]; discriminate Z.
Qed.
Print Assumptions C74_subtype.
(** Numbers written without a blank are set apart at the minus of the second. *)
Lemma dashes_plain s t : (forall c, has c s = true -> c <> "-"%char) -> forall e, dashes e (s ++ t) = s ++ dashes (match s with "" => e | _ => String.eqb (last_chars 1 s) "e" end) t.
Proof.
  induction s as [|c r IH]; intros H e; [reflexivity|]. cbn [append dashes].
  assert (C : Ascii.eqb c "-" = false). { apply Ascii.eqb_neq. apply (H c). cbn [has]. rewrite Ascii.eqb_refl. reflexivity. }
  rewrite C. cbn [andb]. rewrite IH by (intros x X; apply H; cbn [has]; rewrite X; apply orb_true_r). f_equal. f_equal. f_equal.
  destruct r as [|d q].
  - unfold last_chars. cbn. destruct (Ascii.eqb c "e"); reflexivity.
  - unfold last_chars. replace (String.length (String c (String d q)) - 1)%nat with (S (String.length (String d q) - 1)) by (cbn [String.length]; lia). reflexivity.
Qed.
Definition no_space (s : string) : Prop := forall c, has c s = true -> space c = false.
Lemma append_nil s : s ++ "" = s. Proof. induction s; [reflexivity|]. cbn. rewrite IHs. reflexivity. Qed.
Lemma append_cons s c t : (s ++ String c "") ++ t = s ++ String c t. Proof. induction s; [reflexivity|]. cbn. rewrite IHs. reflexivity. Qed.
Lemma words_run a t : no_space a -> forall acc, words_acc (a ++ t) acc = words_acc t (acc ++ a).
Proof.
  induction a as [|c a IH]; intros H acc; [rewrite append_nil; reflexivity|]. cbn [append words_acc].
  rewrite (H c) by (cbn [has]; rewrite Ascii.eqb_refl; reflexivity).
  rewrite IH by (intros x X; apply H; cbn [has]; rewrite X; apply orb_true_r). rewrite append_cons. reflexivity.
Qed.
(** Numbers written without a blank between them are set apart at the minus of the second, if the first does not end with the letter e ... *)
Theorem C74_minus : forall a b, a <> "" -> no_space a -> no_space b -> has "-" a = false -> has "-" b = false ->
  (String.eqb (last_chars 1 a) "e" = false -> read_line (a ++ "-" ++ b) = (if contains "###" (a ++ "-" ++ b) then Mark else Vals [a; "-" ++ b]))
  /\ (String.eqb (last_chars 1 a) "e" = true -> read_line (a ++ "-" ++ b) = (if contains "###" (a ++ "-" ++ b) then Mark else Vals [a ++ "-" ++ b])).
Proof.
  intros a b N SA SB DA DB.
  assert (D : forall s, has "-" s = false -> forall c, has c s = true -> c <> "-"%char) by (intros s H c X ->; congruence).
  assert (DBB : dashes false b = b). { rewrite <- (append_nil b) at 1. rewrite (dashes_plain b "" (D b DB)). cbn [dashes]. apply append_nil. }
  assert (R : dashes false (a ++ "-" ++ b) = a ++ (if String.eqb (last_chars 1 a) "e" then "-" ++ b else " -" ++ b)).
  { rewrite (dashes_plain a ("-" ++ b) (D a DA)). f_equal. destruct a as [|c a]; [contradiction|]. destruct (String.eqb (last_chars 1 (String c a)) "e"); cbn [append dashes Ascii.eqb Bool.eqb andb negb]; rewrite DBB; reflexivity. }
  assert (SM : no_space ("-" ++ b)). { intros c X. cbn [append has] in X. apply orb_prop in X. destruct X as [X|X]; [apply Ascii.eqb_eq in X; subst c; reflexivity|apply SB; exact X]. }
  assert (one : forall s, s <> "" -> no_space s -> words_acc s "" = [s]).
  { intros s Z H. rewrite <- (append_nil s) at 1. rewrite (words_run s "" H ""). cbn [append words_acc]. destruct s; [contradiction|reflexivity]. }
  split; intros E; unfold read_line; rewrite R, E; destruct (contains "###" (a ++ "-" ++ b)); try reflexivity; f_equal; unfold words.
  - rewrite (words_run a (" -" ++ b) SA ""). cbn [append words_acc]. change (space " ") with true. cbv iota. destruct a as [|c a]; [contradiction|]. f_equal.
    change (words_acc ("-" ++ b) "" = ["-" ++ b]). apply one; [discriminate|exact SM].
  - change (a ++ String "-" b) with (a ++ ("-" ++ b)). rewrite (words_run a ("-" ++ b) SA ""). rewrite <- (append_nil ("-" ++ b)) at 1. rewrite (words_run ("-" ++ b) "" SM).
    cbn [append words_acc]. destruct a as [|c a]; [contradiction|reflexivity].
Qed.
Print Assumptions C74_minus.

(** *** Examples *)
Definition digit_num (s : string) : option Q := match s with String c "" => if digit c then Some (inject_Z (Z.of_nat (nat_of_ascii c - 48))) else None | _ => None end.
Definition digit_int (s : string) : option nat := match s with String c "" => if digit c then Some (nat_of_ascii c - 48)%nat else None | _ => None end.
Definition square (y : string) : list string := ["2 3"; ""; "1"; "2"; ""; "3"; "4"; y; ""; "1 2"; "3 4"; "5 6"; ""; "1 1"; "2 2"; "3 3"].
Example C74_square_ok : forall y, In y ["5"; "6"] -> exists Y, xyie_ok digit_num digit_int "2 3" ["1"; "2"] ["3"; "4"; y] ["1 2"; "3 4"; "5 6"] ["1 1"; "2 2"; "3 3"] [1; 2]%Q Y [[1; 2]; [3; 4]; [5; 6]]%Q [[1; 1]; [2; 2]; [3; 3]]%Q
  /\ square y = xyie_file "2 3" "" ["1"; "2"] "" ["3"; "4"; y] "" ["1 2"; "3 4"; "5 6"] "" ["1 1"; "2 2"; "3 3"] [].
Proof.
  intros y [<-|[<-|[]]]; [exists [3; 4; 5]%Q|exists [3; 4; 6]%Q]; (split; [|reflexivity]); (constructor; [exists "2", "3"; repeat split|..]);
    try (repeat constructor); try (cbn [List.length]; lia); try (intros r I; cbn [In] in I; repeat (destruct I as [<-|I]; [reflexivity|]); contradiction).
Qed.
Example C74_square_case : exists d, load_xyie digit_num digit_int (square "5") = Ok d /\ load_xyie digit_num digit_int (square "6") = Ok d
  /\ ycol d = Some [1; 2; 1; 2; 1; 2]%Q /\ get_intensity d = Err ValueError /\ get_error d = Err ValueError.
Proof. eexists. repeat split. Qed.
Definition spe_file (nx ny : string) (xs : list string) : list string :=
  List.app [nx ++ " " ++ ny; "### x"] (List.app xs ["### y"; "5 6"; "7 8"; "### I"; "1 2 3"; "### E"; "4 5 6"; "### I"; "7 8 9"; "### E"; "1 1 2"]).
(** Two x values in one line and three rows: right, but for the y column. *)
Example C74_spe_case : exists d, load_spe digit_num digit_int (spe_file "2" "3" ["1 2"]) = Ok d /\ intensity d = [1; 7; 2; 8; 3; 9]%Q /\ error d = [4; 1; 5; 1; 6; 2]%Q
  /\ xcol d = [1; 2; 1; 2; 1; 2]%Q /\ ycol d = Some (xcol d) /\ get_intensity d = Err ValueError.
Proof. eexists. repeat split. Qed.
Lemma spe_case_ok (xl : list (list string)) X : values digit_num xl X -> (2 <= List.length X)%nat -> spe_ok digit_num digit_int ["2"; "3"] xl [["5"; "6"]; ["7"; "8"]] [[["1"; "2"; "3"]]; [["7"; "8"; "9"]]] [[["4"; "5"; "6"]]; [["1"; "1"; "2"]]]
  2 3 X [5; 6; 7; 8]%Q [[1; 2; 3]; [7; 8; 9]]%Q [[4; 5; 6]; [1; 1; 2]]%Q.
Proof.
  intros H L. constructor; [exists "2", "3"; repeat split|exact H|..]; try (repeat constructor); try (intros r I; cbn [In] in I; repeat (destruct I as [<-|I]; [cbn [List.length]; lia|]); contradiction); cbn [List.length]; try lia.
Qed.
Example C74_spe_meets : map read_line (spe_file "2" "3" ["1 2"]) = spe_lines ["2"; "3"] [["1"; "2"]] [["5"; "6"]; ["7"; "8"]] [[["1"; "2"; "3"]]; [["7"; "8"; "9"]]] [[["4"; "5"; "6"]]; [["1"; "1"; "2"]]].
Proof. reflexivity. Qed.
(** A third x value in a line of its own: no x, and the y values and errors are the intensities. *)
Example C74_spe_swapped_case : exists d, load_spe digit_num digit_int (spe_file "2" "3" ["1 2"; "3"]) = Ok d /\ intensity d = [5; 4; 6; 5; 7; 6]%Q /\ error d = [1; 7; 2; 8; 3; 9]%Q /\ xcol d = [].
Proof. eexists. repeat split. Qed.
(** A third x value in the same line: refused. *)
Example C74_spe_refused_case : load_spe digit_num digit_int (spe_file "2" "3" ["1 2 3"]) = Err ValueError.
Proof. reflexivity. Qed.
Example C74_columns_case : exists d, load_iexy digit_num ["1 2 3 4"; "5 6 7 8"] = Ok d /\ ycol d = Some [4; 8]%Q /\ get_intensity d = Ok ([2%nat], Some [1; 5]%Q).
Proof. eexists. repeat split. Qed.
Example C74_subtype_case : subtype "run.dat" (square "5") = Err OSError /\ subtype "run.xyie" (square "5") = Ok "xyie".
Proof. split; reflexivity. Qed.
Example C74_minus_case : read_line "-0.01452-0.0005235" = Vals ["-0.01452"; "-0.0005235"] /\ read_line "1e-05" = Vals ["1e-05"] /\ read_line "1E-05" = Vals ["1E"; "-05"].
Proof. repeat split. Qed.

(** Theorems about the false-colour map of a collection of scans (C82). *)
From Coq Require Import Reals String List Bool Arith Lia Lra.
From Verif Require Import Base ScansModel PcolorModel.
Import ListNotations.
Local Open Scope R_scope.

(** ** What the picture shows, in terms of the measured points *)

(** A position lies between two boundaries, whichever is the larger. *)
Definition between (a b X : R) : Prop := (X - a) * (X - b) <= 0.
(** The picture shows the value [v] at the position [(X, Y)]. *)
Definition shows (ts : list (list tile * list tile)) (X Y v : R) : Prop :=
  exists lower upper t, In (lower, upper) ts /\ In t (lower ++ upper) /\ between (x0 t) (x1 t) X /\ between (y0 t) (y1 t) Y /\ val t = v.
(** Entry [j] is the nearest one to [X]. *)
Definition nearest (l : list R) (j : nat) (X : R) : Prop :=
  (j < List.length l)%nat /\ forall k, (k < List.length l)%nat -> Rabs (X - nth j l 0) <= Rabs (X - nth k l 0).
(** [X] is at most half a step outside the range of the entries. *)
Definition within (l : list R) (X : R) : Prop :=
  let n := List.length l in
  between (nth 0 l 0 - (nth 1 l 0 - nth 0 l 0) / 2) (nth (n - 1) l 0 + (nth (n - 1) l 0 - nth (n - 2) l 0) / 2) X.
(** The part of an axis that shows entry [j] of [l]: the positions nearest to it, up to half a step outside the range; a single
    entry is shown from zero to twice its value. *)
Definition region (l : list R) (j : nat) (X : R) : Prop :=
  match l with [a] => j = 0%nat /\ between 0 (2 * a) X | _ => nearest l j X /\ within l X end.
Definition increasing (l : list R) : Prop := forall i j, (i < j)%nat -> (j < List.length l)%nat -> nth i l 0 < nth j l 0.
Definition decreasing (l : list R) : Prop := forall i j, (i < j)%nat -> (j < List.length l)%nat -> nth j l 0 < nth i l 0.
Definition average (l : list R) : R := fold_right Rplus 0 l / INR (List.length l).

(** ** Boundaries *)

Lemma mids_length : forall l, List.length (mids l) = (List.length l - 1)%nat.
Proof.
  induction l as [|a [|b l] IH]; [reflexivity|reflexivity|].
  change (mids (a :: b :: l)) with ((a + b) / 2 :: mids (b :: l)). cbn [List.length] in *. rewrite IH. lia.
Qed.
Lemma mids_nth : forall l k, (S k < List.length l)%nat -> nth k (mids l) 0 = (nth k l 0 + nth (S k) l 0) / 2.
Proof.
  induction l as [|a [|b l] IH]; intros k H; [cbn in H; lia|cbn in H; lia|].
  change (mids (a :: b :: l)) with ((a + b) / 2 :: mids (b :: l)).
  destruct k as [|k]; [reflexivity|]. cbn [nth]. rewrite IH by (cbn [List.length] in *; lia). reflexivity.
Qed.
Lemma last_nth : forall (l : list R), last l 0 = nth (List.length l - 1) l 0.
Proof.
  induction l as [|a [|b l] IH]; [reflexivity|reflexivity|].
  change (last (a :: b :: l) 0) with (last (b :: l) 0). rewrite IH. cbn [List.length]. replace (S (S (List.length l)) - 1)%nat with (S (S (List.length l) - 1)) by lia. reflexivity.
Qed.

Lemma edges_spec : forall l, (2 <= List.length l)%nat -> exists es, edges l = Ok es /\ List.length es = S (List.length l) /\
  nth 0 es 0 = nth 0 l 0 - (nth 1 l 0 - nth 0 l 0) / 2 /\
  (forall k, (0 < k < List.length l)%nat -> nth k es 0 = (nth (k - 1) l 0 + nth k l 0) / 2) /\
  nth (List.length l) es 0 = nth (List.length l - 1) l 0 + (nth (List.length l - 1) l 0 - nth (List.length l - 2) l 0) / 2.
Proof.
  intros l H. destruct l as [|a l]; [cbn in H; lia|]. unfold edges. eexists; split; [reflexivity|].
  assert (Hm := mids_length (a :: l)). assert (Hn := mids_nth (a :: l)). set (L := a :: l) in *. set (n := List.length L) in *.
  assert (H2 : (2 <= n)%nat) by exact H.
  repeat split.
  - cbn [List.length]. rewrite app_length, Hm. cbn [List.length]. lia.
  - cbn [nth]. rewrite app_nth1 by lia. rewrite Hn by lia. change (nth 0 L 0) with a. lra.
  - intros k Hk. destruct k as [|k]; [lia|]. cbn [nth]. rewrite app_nth1 by lia. rewrite Hn by lia. replace (S k - 1)%nat with k by lia. reflexivity.
  - assert (He : n = S (n - 1)) by lia. rewrite He at 1. cbn [nth]. rewrite app_nth2 by lia. rewrite Hm, Nat.sub_diag. cbn [nth].
    rewrite last_nth. fold n. replace (n - 1)%nat with (S (n - 2)) at 2 by lia. cbn [nth]. rewrite Hn by lia. replace (S (n - 2)) with (n - 1)%nat by lia. lra.
Qed.

Lemma rabs_le : forall X a b, a < b -> (Rabs (X - a) <= Rabs (X - b) <-> X <= (a + b) / 2).
Proof. intros. unfold Rabs. destruct (Rcase_abs (X - a)), (Rcase_abs (X - b)); split; intros; lra. Qed.
Lemma rabs_ge : forall X a b, a < b -> (Rabs (X - b) <= Rabs (X - a) <-> (a + b) / 2 <= X).
Proof. intros. unfold Rabs. destruct (Rcase_abs (X - a)), (Rcase_abs (X - b)); split; intros; lra. Qed.
Lemma between_le : forall a b X, a <= b -> (between a b X <-> a <= X <= b).
Proof.
  intros a b X H. unfold between. split; intros.
  - destruct (Rle_dec a X), (Rle_dec X b); try lra.
    + assert (0 < (X - a) * (X - b)) by (apply Rmult_lt_0_compat; lra). lra.
    + assert (0 < (a - X) * (b - X)) by (apply Rmult_lt_0_compat; lra). lra.
  - assert (0 <= (X - a) * (b - X)) by (apply Rmult_le_pos; lra). lra.
Qed.

Lemma incr_le : forall l, increasing l -> forall i j, (i <= j)%nat -> (j < List.length l)%nat -> nth i l 0 <= nth j l 0.
Proof. intros l Hi i j Hij Hj. destruct (Nat.eq_dec i j); [subst; lra|]. apply Rlt_le, Hi; lia. Qed.

Lemma cell_increasing : forall l es, (2 <= List.length l)%nat -> increasing l -> edges l = Ok es ->
  forall j X, (j < List.length l)%nat ->
    (nth j es 0 <= X <= nth (S j) es 0 <-> nearest l j X /\ within l X) /\ nth j es 0 <= nth j l 0 <= nth (S j) es 0.
Proof.
  intros l es H2 Hi He j X Hj. destruct (edges_spec l H2) as (es' & He' & Hlen & E0 & Ek & En). rewrite He in He'. injection He' as <-.
  pose proof (incr_le l Hi) as Hle. set (n := List.length l) in *.
  assert (Hlo : nth 0 es 0 <= nth 0 l 0) by (rewrite E0; pose proof (Hle 0%nat 1%nat ltac:(lia) ltac:(lia)); lra).
  assert (Hhi : nth (n - 1) l 0 <= nth n es 0) by (rewrite En; pose proof (Hle (n - 2)%nat (n - 1)%nat ltac:(lia) ltac:(lia)); lra).
  assert (Hw : within l X <-> nth 0 es 0 <= X <= nth n es 0).
  { unfold within. fold n. rewrite between_le; [rewrite E0, En; reflexivity|]. rewrite <- E0, <- En. pose proof (Hle 0%nat (n - 1)%nat ltac:(lia) ltac:(lia)). lra. }
  assert (HL : nth 0 es 0 <= nth j es 0 <= nth j l 0).
  { destruct (Nat.eq_dec j 0) as [->|]; [lra|]. rewrite (Ek j) by lia. pose proof (Hle 0%nat (j - 1)%nat ltac:(lia) ltac:(lia)). pose proof (Hle (j - 1)%nat j ltac:(lia) ltac:(lia)). lra. }
  assert (HR : nth j l 0 <= nth (S j) es 0 <= nth n es 0).
  { destruct (Nat.eq_dec (S j) n) as [e|]; [rewrite e; replace j with (n - 1)%nat by lia; lra|].
    rewrite (Ek (S j)) by lia. replace (S j - 1)%nat with j by lia. pose proof (Hle (S j) (n - 1)%nat ltac:(lia) ltac:(lia)). pose proof (Hle j (S j) ltac:(lia) ltac:(lia)). lra. }
  split; [|lra]. rewrite Hw. split.
  - intros HX. split; [|lra]. split; [exact Hj|]. intros k Hk. fold n in Hk.
    destruct (lt_eq_lt_dec k j) as [[Hlt| ->]|Hgt]; [|lra|].
    + apply rabs_ge; [apply Hi; [lia|exact Hj]|]. rewrite (Ek j) in HX by lia. pose proof (Hle k (j - 1)%nat ltac:(lia) ltac:(lia)). lra.
    + apply rabs_le; [apply Hi; [lia|exact Hk]|]. rewrite (Ek (S j)) in HX by lia. replace (S j - 1)%nat with j in HX by lia. pose proof (Hle (S j) k ltac:(lia) ltac:(lia)). lra.
  - intros [[_ Hn] HX]. fold n in Hn. split.
    + destruct (Nat.eq_dec j 0) as [->|]; [lra|]. rewrite (Ek j) by lia. apply rabs_ge; [apply Hi; [lia|exact Hj]|]. apply Hn. lia.
    + destruct (Nat.eq_dec (S j) n) as [->|]; [lra|]. rewrite (Ek (S j)) by lia. replace (S j - 1)%nat with j by lia. apply rabs_le; [apply Hi; [lia|fold n; lia]|]. apply Hn. lia.
Qed.

(** Falling columns: the mirror image. *)
Lemma nth_opp : forall l k, nth k (map Ropp l) 0 = - nth k l 0.
Proof. intros. rewrite <- (map_nth Ropp l 0 k). rewrite Ropp_0. reflexivity. Qed.
Lemma edges_opp : forall l es, (2 <= List.length l)%nat -> edges l = Ok es -> exists fs, edges (map Ropp l) = Ok fs /\ forall k, (k <= List.length l)%nat -> nth k fs 0 = - nth k es 0.
Proof.
  intros l es H2 He. destruct (edges_spec l H2) as (es' & He' & Hlen & E0 & Ek & En). rewrite He in He'. injection He' as <-.
  destruct (edges_spec (map Ropp l) ltac:(rewrite map_length; exact H2)) as (fs & Hf & Hlf & F0 & Fk & Fn). exists fs. split; [exact Hf|].
  rewrite map_length in *. rewrite !nth_opp in *. intros k Hk.
  destruct (Nat.eq_dec k 0) as [->|]; [rewrite F0, E0; lra|]. destruct (Nat.eq_dec k (List.length l)) as [->|]; [rewrite Fn, En; lra|].
  rewrite Fk, Ek by lia. rewrite !nth_opp. lra.
Qed.
Lemma nearest_opp : forall l j X, nearest (map Ropp l) j (- X) <-> nearest l j X.
Proof.
  intros. unfold nearest. rewrite map_length. assert (He : forall k, Rabs (- X - nth k (map Ropp l) 0) = Rabs (X - nth k l 0)).
  { intros. rewrite nth_opp. rewrite <- Rabs_Ropp. f_equal. lra. }
  split; intros [H1 H2]; (split; [exact H1|]); intros k Hk; specialize (H2 k Hk); rewrite ?He in *; exact H2.
Qed.
Lemma within_opp : forall l X, within (map Ropp l) (- X) <-> within l X.
Proof. intros. unfold within, between. cbv zeta. rewrite map_length, !nth_opp. split; intros H; (eapply Rle_trans; [|exact H]); right; field. Qed.

Lemma cell : forall l es, (2 <= List.length l)%nat -> increasing l \/ decreasing l -> edges l = Ok es ->
  forall j X, (j < List.length l)%nat ->
    (between (nth j es 0) (nth (S j) es 0) X <-> nearest l j X /\ within l X) /\ between (nth j es 0) (nth (S j) es 0) (nth j l 0).
Proof.
  intros l es H2 [Hi|Hd] He j X Hj.
  - destruct (cell_increasing l es H2 Hi He j X Hj) as [H1 H3]. rewrite !between_le by lra. tauto.
  - destruct (edges_opp l es H2 He) as (fs & Hf & Hk).
    assert (Hi : increasing (map Ropp l)). { intros a b Hab Hb. rewrite map_length in Hb. rewrite !nth_opp. pose proof (Hd a b Hab Hb). lra. }
    destruct (cell_increasing (map Ropp l) fs ltac:(rewrite map_length; exact H2) Hi Hf j (- X) ltac:(rewrite map_length; exact Hj)) as [H1 H3].
    rewrite !Hk in H1, H3 by lia. rewrite nth_opp in H3. rewrite nearest_opp, within_opp in H1.
    assert (Hb : forall Z, between (nth j es 0) (nth (S j) es 0) Z <-> - nth j es 0 <= - Z <= - nth (S j) es 0).
    { intros Z. rewrite <- between_le by lra. unfold between. split; intros H; (eapply Rle_trans; [|exact H]); right; field. }
    rewrite !Hb. split; [exact H1|exact H3].
Qed.

Lemma region2 : forall l j X, (2 <= List.length l)%nat -> (region l j X <-> nearest l j X /\ within l X).
Proof. intros l j X H. destruct l as [|a [|b l]]; cbn in H; try lia. reflexivity. Qed.
Lemma region_lt : forall l j X, region l j X -> (j < List.length l)%nat.
Proof. intros l j X H. destruct l as [|a [|b l]]; cbn in H; [destruct H as [[H _] _]; exact H|destruct H as [-> _]; cbn; lia|destruct H as [[H _] _]; exact H]. Qed.
Lemma edges_ok : forall l, l <> [] -> exists es, edges l = Ok es /\ List.length es = S (List.length l).
Proof.
  intros l H. destruct l as [|a l]; [congruence|]. unfold edges. eexists; split; [reflexivity|]. cbn [List.length]. rewrite app_length, mids_length. cbn [List.length]. lia.
Qed.
Lemma cell1 : forall l es, l <> [] -> increasing l \/ decreasing l -> edges l = Ok es ->
  forall j X, (j < List.length l)%nat -> (between (nth j es 0) (nth (S j) es 0) X <-> region l j X) /\ between (nth j es 0) (nth (S j) es 0) (nth j l 0).
Proof.
  intros l es Hne Hmono He j X Hj. destruct (Nat.eq_dec (List.length l) 1) as [H1|H1].
  - destruct l as [|a [|b l]]; cbn in H1; try lia. cbn in Hj. assert (j = 0%nat) by lia. subst j. cbn in He. injection He as <-. cbn [nth region].
    assert (E : between (2 * a - 0) (2 * a - (2 * a - 0)) X <-> between 0 (2 * a) X) by (unfold between; split; intros H; (eapply Rle_trans; [|exact H]); right; ring).
    rewrite E. split; [tauto|]. unfold between. pose proof (Rle_0_sqr a). unfold Rsqr in *. lra.
  - assert (H2 : (2 <= List.length l)%nat) by (destruct l as [|a [|b l]]; cbn in *; try lia; congruence). rewrite region2 by exact H2. apply cell; assumption.
Qed.

(** ** Rectangles *)

Lemma row_ok : forall zs xs ya yb, List.length xs = S (List.length zs) -> exists r, row xs ya yb zs = Ok r /\
  forall t, In t r <-> exists j, (j < List.length zs)%nat /\ t = mkTile (nth j xs 0) (nth (S j) xs 0) ya yb (nth j zs 0).
Proof.
  induction zs as [|z zs IH]; intros xs ya yb H.
  - destruct xs as [|a [|b xs]]; cbn in H; try lia. exists []. split; [reflexivity|]. intros t. cbn. split; [tauto|]. intros (j & Hj & _). lia.
  - destruct xs as [|a [|b xs]]; cbn in H; try lia. destruct (IH (b :: xs) ya yb ltac:(cbn; lia)) as (r & Hr & Ht).
    change (row (a :: b :: xs) ya yb (z :: zs)) with (bind (row (b :: xs) ya yb zs) (fun r => Ok (mkTile a b ya yb z :: r))). rewrite Hr. cbn [bind].
    eexists. split; [reflexivity|]. intros t. split.
    + intros [<-|Hin]; [exists 0%nat; cbn; split; [lia|reflexivity]|]. apply Ht in Hin. destruct Hin as (j & Hj & ->). exists (S j). cbn [List.length]. split; [lia|reflexivity].
    + intros (j & Hj & ->). destruct j as [|j]; [left; reflexivity|]. right. apply Ht. exists j. cbn [List.length] in Hj. split; [lia|reflexivity].
Qed.

Definition wellformed (xs zs : list R) : Prop := List.length zs = List.length xs /\ xs <> [] /\ (increasing xs \/ decreasing xs).

Lemma split_between : forall a m b Y, between a b m -> (between a m Y \/ between m b Y <-> between a b Y).
Proof.
  intros a m b Y H. destruct (Rle_dec a b) as [Hl|Hl].
  - apply between_le in H; [|exact Hl]. rewrite !between_le by lra. lra.
  - assert (Hs : forall p q Z, between p q Z <-> between q p Z) by (intros; unfold between; rewrite Rmult_comm; reflexivity).
    rewrite (Hs a m), (Hs m b), (Hs a b) in *. apply between_le in H; [|lra]. rewrite !between_le by lra. lra.
Qed.

Lemma rows_ok : forall x z d ys ms xs zs,
  map_res (fun kv => column (snd kv) x) d = Ok xs -> map_res (fun kv => column (snd kv) z) d = Ok zs ->
  List.length ms = List.length d -> List.length ys = S (List.length d) ->
  (forall i, (i < List.length d)%nat -> wellformed (nth i xs []) (nth i zs [])) ->
  (forall i, (i < List.length d)%nat -> between (nth i ys 0) (nth (S i) ys 0) (nth i ms 0)) ->
  exists ts, rows x z d ys ms = Ok ts /\
    forall X Y v, shows ts X Y v <-> exists i j, (i < List.length d)%nat /\ between (nth i ys 0) (nth (S i) ys 0) Y /\
      region (nth i xs []) j X /\ v = nth j (nth i zs []) 0.
Proof.
  induction d as [|[k s] d IH]; intros ys ms xs zs Hx Hz Hm Hy Hw Hb.
  - exists []. split; [reflexivity|]. intros. split; [intros (a & b & t & [] & _)|]. intros (i & j & Hi & _). cbn in Hi. lia.
  - cbn [map_res snd] in Hx, Hz.
    destruct (column s x) as [mx|] eqn:Ex; [|discriminate]. destruct (map_res (fun kv => column (snd kv) x) d) as [xs'|] eqn:Exs; [|discriminate]. injection Hx as <-.
    destruct (column s z) as [zv|] eqn:Ez; [|discriminate]. destruct (map_res (fun kv => column (snd kv) z) d) as [zs'|] eqn:Ezs; [|discriminate]. injection Hz as <-.
    destruct ms as [|m ms]; [cbn in Hm; lia|]. destruct ys as [|ya [|yb ys]]; [cbn in Hy; lia|cbn in Hy; lia|].
    destruct (IH (yb :: ys) ms xs' zs' eq_refl eq_refl) as (ts & Hts & Hshow).
    { cbn in Hm. lia. } { cbn in Hy |- *. lia. }
    { intros i Hi. exact (Hw (S i) ltac:(cbn; lia)). } { intros i Hi. exact (Hb (S i) ltac:(cbn; lia)). }
    destruct (Hw 0%nat ltac:(cbn; lia)) as (Hl & H2 & Hmono). cbn [nth] in Hl, H2, Hmono.
    destruct (edges_ok mx H2) as (es & He & Hlen).
    destruct (row_ok zv es ya m ltac:(lia)) as (lower & Hlow & Tlow). destruct (row_ok zv es m yb ltac:(lia)) as (upper & Hup & Tup).
    change (rows x z ((k, s) :: d) (ya :: yb :: ys) (m :: ms)) with
      (bind (column s x) (fun mx => bind (column s z) (fun zv => bind (edges mx) (fun xs =>
      bind (row xs ya m zv) (fun lower => bind (row xs m yb zv) (fun upper => bind (rows x z d (yb :: ys) ms) (fun r => Ok ((lower, upper) :: r)))))))).
    rewrite Ex, Ez. cbn [bind]. rewrite He. cbn [bind]. rewrite Hlow. cbn [bind]. rewrite Hup. cbn [bind]. rewrite Hts. cbn [bind].
    eexists. split; [reflexivity|]. intros X Y v.
    assert (Hm0 := Hb 0%nat ltac:(cbn; lia)). cbn [nth] in Hm0.
    split.
    + intros (lo & up & t & [Heq|Hin] & Ht & HX & HY & Hv).
      * injection Heq as <- <-. exists 0%nat. apply in_app_or in Ht.
        assert (Hc : exists j, (j < List.length mx)%nat /\ between (nth j es 0) (nth (S j) es 0) X /\ (between ya m Y \/ between m yb Y) /\ v = nth j zv 0).
        { destruct Ht as [Ht|Ht]; [apply Tlow in Ht|apply Tup in Ht]; destruct Ht as (j & Hj & ->); cbn [x0 x1 y0 y1 val] in *; exists j; (split; [lia|]); auto. }
        destruct Hc as (j & Hj & HXj & HYj & Hvj). exists j. cbn [nth]. split; [cbn; lia|]. split; [apply (split_between ya m yb); assumption|].
        destruct (cell1 mx es H2 Hmono He j X Hj) as [Hc _]. apply Hc in HXj. tauto.
      * destruct (proj1 (Hshow X Y v)) as (i & j & Hi & Hrest); [exists lo, up, t; auto|]. exists (S i), j. cbn [nth]. split; [cbn; lia|exact Hrest].
    + intros (i & j & Hi & HY & Hn & Hv). destruct i as [|i].
      * cbn [nth] in HY, Hn, Hv. apply (split_between ya m yb) in HY; [|exact Hm0].
        assert (Hj : (j < List.length mx)%nat) by exact (region_lt _ _ _ Hn). destruct (cell1 mx es H2 Hmono He j X Hj) as [Hc _].
        exists lower, upper. destruct HY as [HY|HY].
        -- exists (mkTile (nth j es 0) (nth (S j) es 0) ya m (nth j zv 0)). split; [left; reflexivity|]. split; [apply in_or_app; left; apply Tlow; exists j; split; [lia|reflexivity]|].
           cbn [x0 x1 y0 y1 val]. split; [apply Hc; tauto|]. auto.
        -- exists (mkTile (nth j es 0) (nth (S j) es 0) m yb (nth j zv 0)). split; [left; reflexivity|]. split; [apply in_or_app; right; apply Tup; exists j; split; [lia|reflexivity]|].
           cbn [x0 x1 y0 y1 val]. split; [apply Hc; tauto|]. auto.
      * destruct (proj2 (Hshow X Y v)) as (lo & up & t & Hin & Hrest). { exists i, j. cbn [nth] in *. split; [cbn in Hi; lia|auto]. }
        exists lo, up, t. split; [right; exact Hin|exact Hrest].
Qed.

(** ** Mean values and colour limits *)

Lemma rsum_fold : forall l, rsum l = fold_right Rplus 0 l.
Proof. induction l as [|a l IH]; [reflexivity|]. cbn. rewrite IH. reflexivity. Qed.
Lemma mean_average : forall g l, l <> [] -> mean g l = Ok (average l).
Proof. intros g l H. destruct l as [|a l]; [congruence|]. unfold mean, average. rewrite rsum_fold. reflexivity. Qed.

Lemma fill_means : forall y g d ys, map_res (fun kv => column (snd kv) y) d = Ok ys -> (forall c, In c ys -> c <> []) ->
  fill (fun s => bind (column s y) (mean g)) (List.length d) d = Ok (map average ys).
Proof.
  induction d as [|[k s] d IH]; intros ys H Hne; [cbn in H; injection H as <-; reflexivity|].
  cbn [map_res snd] in H. destruct (column s y) as [c|] eqn:Ec; [|discriminate]. destruct (map_res (fun kv => column (snd kv) y) d) as [ys'|] eqn:Es; [|discriminate]. injection H as <-.
  cbn [fill List.length]. rewrite Ec. cbn [bind]. rewrite mean_average by (apply Hne; left; reflexivity).
  rewrite (IH ys' eq_refl) by (intros; apply Hne; right; assumption). reflexivity.
Qed.

Lemma fold_max : forall l a, (forall v, In v (a :: l) -> v <= fold_left Rmax l a) /\ In (fold_left Rmax l a) (a :: l).
Proof.
  induction l as [|b l IH]; intros a; cbn [fold_left]; [split; [intros v [->|[]]; lra|left; reflexivity]|].
  destruct (IH (Rmax a b)) as [H1 H2]. split.
  - intros v [->|[->|H]]; [eapply Rle_trans; [apply Rmax_l|apply H1; left; reflexivity]|eapply Rle_trans; [apply Rmax_r|apply H1; left; reflexivity]|apply H1; right; exact H].
  - destruct H2 as [<-|H2]; [unfold Rmax; destruct (Rle_dec a b); [right; left|left]; reflexivity|right; right; exact H2].
Qed.
Lemma fold_min : forall l a, (forall v, In v (a :: l) -> fold_left Rmin l a <= v) /\ In (fold_left Rmin l a) (a :: l).
Proof.
  induction l as [|b l IH]; intros a; cbn [fold_left]; [split; [intros v [->|[]]; lra|left; reflexivity]|].
  destruct (IH (Rmin a b)) as [H1 H2]. split.
  - intros v [->|[->|H]]; [eapply Rle_trans; [apply H1; left; reflexivity|apply Rmin_l]|eapply Rle_trans; [apply H1; left; reflexivity|apply Rmin_r]|apply H1; right; exact H].
  - destruct H2 as [<-|H2]; [unfold Rmin; destruct (Rle_dec a b); [left|right; left]; reflexivity|right; right; exact H2].
Qed.

(** [m] is the smallest value of the column [c]. *)
Definition least (c : list R) (m : R) : Prop := In m c /\ forall v, In v c -> m <= v.
(** The default limits: the largest value shown or zero, and the smallest among one and the positive minima of the scans. *)
Definition upper_limit (zs : list (list R)) (a hi : R) : Prop := (hi = a \/ exists c, In c zs /\ In hi c) /\ a <= hi /\ forall c v, In c zs -> In v c -> v <= hi.
Definition lower_limit (zs : list (list R)) (a lo : R) : Prop :=
  (lo = a \/ exists c, In c zs /\ least c lo /\ 0 < lo) /\ lo <= a /\ forall c m, In c zs -> least c m -> 0 < m -> lo <= m.

Lemma limits_ok : forall z d zs lo hi, map_res (fun kv => column (snd kv) z) d = Ok zs -> (forall c, In c zs -> c <> []) ->
  exists lo' hi', limits z d lo hi = Ok (lo', hi') /\ upper_limit zs hi hi' /\ lower_limit zs lo lo'.
Proof.
  induction d as [|[k s] d IH]; intros zs lo hi H Hne.
  - cbn in H. injection H as <-. exists lo, hi. split; [reflexivity|]. split; (split; [left; reflexivity|split; [lra|intros ? ? []]]).
  - cbn [map_res snd] in H. destruct (column s z) as [c|] eqn:Ec; [|discriminate]. destruct (map_res (fun kv => column (snd kv) z) d) as [zs'|] eqn:Es; [|discriminate]. injection H as <-.
    destruct c as [|a c]; [exfalso; apply (Hne []); [left; reflexivity|reflexivity]|].
    cbn [limits]. rewrite Ec. cbn [bind lmax lmin]. destruct (fold_max c a) as [X1 X2]. destruct (fold_min c a) as [M1 M2].
    set (maxz := fold_left Rmax c a) in *. set (minz := fold_left Rmin c a) in *. cbv zeta.
    set (hi1 := if Rlt_dec hi maxz then maxz else hi). set (lo1 := if Rlt_dec minz lo then if Rlt_dec 0 minz then minz else lo else lo).
    destruct (IH zs' lo1 hi1 eq_refl) as (lo' & hi' & Hl & HU & HL). { intros; apply Hne; right; assumption. }
    exists lo', hi'. split; [exact Hl|]. clear Hl.
    assert (Hleast : least (a :: c) minz) by (split; [exact M2|exact M1]).
    split.
    + destruct HU as (U1 & U2 & U3). assert (Hh : hi <= hi1 /\ maxz <= hi1 /\ (hi1 = hi \/ hi1 = maxz)) by (unfold hi1; destruct (Rlt_dec hi maxz); lra).
      destruct Hh as (Ha & Hb & Hc). split; [|split; [lra|]].
      * destruct U1 as [->|(c' & Hin & Hv)]; [|right; exists c'; split; [right; exact Hin|exact Hv]]. destruct Hc as [->| ->]; [left; reflexivity|]. right. exists (a :: c). split; [left; reflexivity|exact X2].
      * intros c' v [<-|Hin] Hv; [pose proof (X1 v Hv); lra|exact (U3 c' v Hin Hv)].
    + destruct HL as (L1 & L2 & L3). assert (Hh : lo1 <= lo /\ (0 < minz -> lo1 <= minz) /\ (lo1 = lo \/ (lo1 = minz /\ 0 < minz))) by (unfold lo1; destruct (Rlt_dec minz lo), (Rlt_dec 0 minz); lra).
      destruct Hh as (Ha & Hb & Hc). split; [|split; [lra|]].
      * destruct L1 as [->|(c' & Hin & Hv)]; [|right; exists c'; split; [right; exact Hin|exact Hv]]. destruct Hc as [->|[-> Hp]]; [left; reflexivity|]. right. exists (a :: c). split; [left; reflexivity|]. split; [exact Hleast|exact Hp].
      * intros c' m [<-|Hin] Hm Hp; [|exact (L3 c' m Hin Hm Hp)]. assert (m = minz) by (apply Rle_antisym; [apply Hm; exact M2|apply M1; apply Hm]). subst m. specialize (Hb Hp). lra.
Qed.

(** ** C82 *)

(** Scans with rising or falling mean y, each with points at rising or falling x: the colour at every
    position of the map is the value of the point nearest in x of the scan nearest in mean y, and the coloured region ends half a
    step outside the outermost points; at a position as near to two points either value may be seen.  A single scan
    is drawn from y = 0 to twice its mean y, a single point from x = 0 to twice its x.  The colour scale runs between the given limits,
    by default from the smallest of one and the positive minima of the scans to the largest of zero and all values. *)
Theorem C82_map_shows_nearest_measurement : forall sc0 d x y z xs ys zs clims,
  sc sc0 = Some d -> num sc0 = Some (List.length d) ->
  map_res (fun kv => column (snd kv) x) d = Ok xs -> map_res (fun kv => column (snd kv) y) d = Ok ys -> map_res (fun kv => column (snd kv) z) d = Ok zs ->
  d <> [] -> (forall c, In c ys -> c <> []) ->
  increasing (map average ys) \/ decreasing (map average ys) ->
  (forall i, (i < List.length d)%nat -> wellformed (nth i xs []) (nth i zs [])) ->
  exists lo hi ts, pcolor sc0 x y z clims = Ok (lo, hi, ts) /\
    (forall X Y v, shows ts X Y v <->
       exists i j, region (map average ys) i Y /\ region (nth i xs []) j X /\ v = nth j (nth i zs []) 0) /\
    match clims with Some (a, b) => lo = a /\ hi = b | None => lower_limit zs 1 lo /\ upper_limit zs 0 hi end.
Proof.
  intros sc0 d x y z xs ys zs clims Hsc Hnum Hx Hy Hz Hd Hne Hmono Hw. unfold pcolor. rewrite Hsc. unfold func_col. rewrite Hsc, Hnum.
  rewrite (fill_means y _ d ys Hy Hne). cbn [bind fst].
  assert (Hlen : forall c cs, map_res (fun kv : string * scan => column (snd kv) c) d = Ok cs -> List.length cs = List.length d).
  { clear. induction d as [|[k s] d IH]; intros c cs H; [cbn in H; injection H as <-; reflexivity|]. cbn [map_res snd] in H.
    destruct (column s c); [|discriminate]. destruct (map_res _ d) eqn:E; [|discriminate]. injection H as <-. cbn. f_equal. exact (IH c _ E). }
  assert (Lm : List.length (map average ys) = List.length d) by (rewrite map_length; exact (Hlen y ys Hy)).
  assert (Hd' : map average ys <> []) by (intros E; rewrite E in Lm; cbn in Lm; destruct d; [congruence|discriminate]).
  destruct (edges_ok (map average ys) Hd') as (es & He & Hle). rewrite He. cbn [bind].
  assert (Hcell := fun i Y (Hi : (i < List.length d)%nat) => cell1 (map average ys) es Hd' Hmono He i Y ltac:(lia)).
  destruct (rows_ok x z d es (map average ys) xs zs Hx Hz Lm ltac:(lia) Hw) as (ts & Hts & Hshow).
  { intros i Hi. apply (Hcell i 0 Hi). }
  assert (Hnez : forall c, In c zs -> c <> []).
  { intros c Hc. apply (In_nth _ _ []) in Hc. destruct Hc as (i & Hi & <-). rewrite (Hlen z zs Hz) in Hi. destruct (Hw i Hi) as (Ha & Hb & _). intros E. rewrite E in Ha. cbn in Ha. destruct (nth i xs []); [congruence|discriminate]. }
  destruct (limits_ok z d zs 1 0 Hz Hnez) as (lo & hi & Hl & HU & HL).
  assert (HS : forall X Y v, shows ts X Y v <-> exists i j, region (map average ys) i Y /\ region (nth i xs []) j X /\ v = nth j (nth i zs []) 0).
  { intros X Y v. rewrite Hshow. split.
    - intros (i & j & Hi & Hb & Hr). exists i, j. apply (Hcell i Y Hi) in Hb. tauto.
    - intros (i & j & Hn & Hr). assert (Hi : (i < List.length d)%nat) by (rewrite <- Lm; exact (region_lt _ _ _ Hn)). exists i, j. split; [exact Hi|]. split; [apply (Hcell i Y Hi); tauto|exact Hr]. }
  destruct clims as [[a b]|]; cbn [bind].
  - rewrite Hts. cbn [bind]. exists a, b, ts. auto.
  - rewrite Hl. cbn [bind]. rewrite Hts. cbn [bind]. exists lo, hi, ts. auto.
Qed.
Print Assumptions C82_map_shows_nearest_measurement.

(** The hypotheses are met: two scans of different lengths, the second measured backwards. *)
Definition two_scans : odict scan :=
  [("1", [("h", [1; 2; 4]); ("e", [5; 5; 5]); ("detector", [7; 9; 3])]); ("2", [("h", [3; 1]); ("e", [8; 8]); ("detector", [0; 2])])]%string.
Example C82_map_example : exists lo hi ts, pcolor (mkScans (Some two_scans) (Some 2%nat)) "h" "e" "detector" None = Ok (lo, hi, ts) /\
  shows ts (9 / 2) 4 3 /\ ~ (exists v, shows ts 6 4 v) /\ lo = 1 /\ hi = 9.
Proof.
  pose (xs := [[1; 2; 4]; [3; 1]]). pose (ys := [[5; 5; 5]; [8; 8]]). pose (zs := [[7; 9; 3]; [0; 2]]).
  assert (Ha : map average ys = [5; 8]) by (unfold ys, average; cbn [map fold_right List.length INR]; f_equal; [lra|f_equal; lra]).
  assert (I3 : increasing [1; 2; 4]) by (intros [|[|[|i]]] [|[|[|j]]] H1 H2; cbn in *; try lia; lra).
  assert (D2 : decreasing [3; 1]) by (intros [|[|i]] [|[|j]] H1 H2; cbn in *; try lia; lra).
  assert (I2 : increasing [5; 8]) by (intros [|[|i]] [|[|j]] H1 H2; cbn in *; try lia; lra).
  destruct (C82_map_shows_nearest_measurement (mkScans (Some two_scans) (Some 2%nat)) two_scans "h" "e" "detector" xs ys zs None) as (lo & hi & ts & H & HS & HL & HU); try reflexivity.
  - discriminate.
  - intros c [<-|[<-|[]]]; discriminate.
  - rewrite Ha. left. exact I2.
  - intros [|[|i]] Hi; cbn in Hi; [| |lia]; (split; [reflexivity|split; [discriminate|]]); [left; exact I3|right; exact D2].
  - exists lo, hi, ts. split; [exact H|]. rewrite Ha in HS. split; [|split; [|split]].
    + apply HS. exists 0%nat, 2%nat. split; [|split; [|reflexivity]].
      * unfold region. split; [|unfold within, between; cbn; lra]. split; [cbn; lia|]. intros [|[|k]] Hk; cbn in *; try lia; unfold Rabs; repeat destruct (Rcase_abs _); lra.
      * unfold region, xs, nth. split; [|unfold within, between; cbn; lra]. split; [cbn; lia|]. intros [|[|[|k]]] Hk; cbn in *; try lia; unfold Rabs; repeat destruct (Rcase_abs _); lra.
    + intros (v & Hv). apply HS in Hv. destruct Hv as (i & j & Hy & Hx & _). assert (Hi := region_lt _ _ _ Hy). destruct i as [|[|i]]; [| |cbn in Hi; lia].
      * destruct Hx as [_ Hx]. unfold within, between, xs in Hx. cbn in Hx. lra.
      * destruct Hx as [_ Hx]. unfold within, between, xs in Hx. cbn in Hx. lra.
    + destruct HL as (L1 & L2 & L3). destruct L1 as [->|(c & [<-|[<-|[]]] & [Hin Hle] & Hp)]; [reflexivity| |].
      * cbn in Hin. lra. * pose proof (Hle 0 ltac:(left; reflexivity)). lra.
    + destruct HU as (U1 & U2 & U3). pose proof (U3 [7; 9; 3] 9 ltac:(left; reflexivity) ltac:(right; left; reflexivity)).
      destruct U1 as [E|(c & [<-|[<-|[]]] & Hin)]; [lra| |]; cbn in Hin; lra.
Qed.

(** Columns that turn back: a measured point can lie outside everything drawn, though all its values are different and finite. *)
Theorem C82_unsorted_point_missing_refuted : exists sc0 xs ys zs i j,
  (exists d, sc sc0 = Some d /\ num sc0 = Some (List.length d) /\ map_res (fun kv => column (snd kv) "x") d = Ok xs /\
     map_res (fun kv => column (snd kv) "y") d = Ok ys /\ map_res (fun kv => column (snd kv) "z") d = Ok zs) /\
  increasing (map average ys) /\ (i < List.length xs)%nat /\ (j < List.length (nth i xs []))%nat /\
  (forall k, NoDup (nth k xs [])) /\
  exists lo hi ts, pcolor sc0 "x" "y" "z" (Some (0, 1)) = Ok (lo, hi, ts) /\ forall v, ~ shows ts (nth j (nth i xs []) 0) (average (nth i ys [])) v.
Proof.
  pose (col := [0; 4; 1]).
  exists (mkScans (Some [("1", [("x", col); ("y", [1]); ("z", [1; 2; 3])]); ("2", [("x", col); ("y", [2]); ("z", [1; 2; 3])])]%string) (Some 2%nat)), [col; col], [[1]; [2]], [[1; 2; 3]; [1; 2; 3]], 0%nat, 1%nat.
  split; [eexists; repeat split; reflexivity|].
  assert (Ha : map average [[1]; [2]] = [1; 2]) by (unfold average; cbn [map fold_right List.length INR]; f_equal; [lra|f_equal; lra]).
  split; [rewrite Ha; intros [|[|i]] [|[|j]] H1 H2; cbn in *; try lia; lra|]. split; [cbn; lia|]. split; [cbn; lia|].
  split. { intros [|[|[|k]]]; cbn; unfold col; try (apply NoDup_nil); (repeat constructor; cbn; intros H; decompose [or] H; try lra; try tauto). }
  unfold pcolor, func_col. cbn [sc num]. cbn -[Rmult Rplus Rminus Rdiv shows].
  eexists _, _, _. split; [reflexivity|]. intros v (lower & upper & t & Hin & Ht & HX & _).
  unfold between in HX. destruct Hin as [E|[E|[]]]; injection E as <- <-; cbn [app] in Ht; cbn [In] in Ht; decompose [or] Ht; try tauto; subst t; cbn [x0 x1] in HX; lra.
Qed.
Print Assumptions C82_unsorted_point_missing_refuted.

(** The documentation says that the default colour scale runs between the minimum and the maximum of all data.  A scan with a zero
    count and counts above one elsewhere: the scale starts at one, below which there are data and which is not a value of the data. *)
Theorem C82_default_limits_refuted : exists z d zs lo hi, map_res (fun kv => column (snd kv) z) d = Ok zs /\ limits z d 1 0 = Ok (lo, hi) /\
  (exists v, In v (concat zs) /\ v < lo) /\ (forall v, In v (concat zs) -> lo <> v).
Proof.
  exists "z"%string, [("1", [("z", [0; 5])]); ("2", [("z", [3; 4])])]%string, [[0; 5]; [3; 4]].
  destruct (limits_ok "z" [("1", [("z", [0; 5])]); ("2", [("z", [3; 4])])]%string [[0; 5]; [3; 4]] 1 0 eq_refl) as (lo & hi & H & _ & (L1 & L2 & L3)).
  { intros c [<-|[<-|[]]]; discriminate. }
  exists lo, hi. split; [reflexivity|]. split; [exact H|].
  assert (E : lo = 1). { destruct L1 as [->|(c & [<-|[<-|[]]] & [Hin Hle] & Hp)]; [reflexivity| |]; [pose proof (Hle 0 ltac:(left; reflexivity)); lra|cbn in Hin; lra]. }
  subst lo. split; [exists 0; split; [left; reflexivity|lra]|]. intros v Hv. cbn in Hv. decompose [or] Hv; try tauto; subst; lra.
Qed.
Print Assumptions C82_default_limits_refuted.

(** No scans at all, and scans added since the collection was last counted: IndexError; a collection never given scans: RuntimeError. *)
Theorem C82_no_map : forall sc0 x y z clims ys,
  match sc sc0 with
  | None => pcolor sc0 x y z clims = Err RuntimeError
  | Some d => forall n, num sc0 = Some n -> map_res (fun kv => column (snd kv) y) d = Ok ys -> (forall c, In c ys -> c <> []) ->
      d = [] \/ (n < List.length d)%nat -> pcolor sc0 x y z clims = Err IndexError
  end.
Proof.
  intros sc0 x y z clims ys. destruct (sc sc0) as [d|] eqn:Es; unfold pcolor; rewrite Es; [|reflexivity].
  intros n Hn Hy Hne Hc. unfold func_col. rewrite Es, Hn. destruct Hc as [->|Hlt]; [reflexivity|].
  set (g := match clims with Some _ => true | None => false end). clearbody g.
  assert (Hf : fill (fun s => bind (column s y) (mean g)) n d = Err IndexError).
  { clear Es Hn. revert n ys Hy Hne Hlt. induction d as [|[k s] d IH]; intros n ys Hy Hne Hlt; [cbn in Hlt; lia|].
    cbn [map_res snd] in Hy. destruct (column s y) as [c|] eqn:Ec; [|discriminate]. destruct (map_res (fun kv => column (snd kv) y) d) as [ys'|] eqn:Ed; [|discriminate]. injection Hy as <-.
    cbn [fill]. rewrite Ec. cbn [bind]. rewrite mean_average by (apply Hne; left; reflexivity). destruct n as [|n]; [reflexivity|].
    rewrite (IH n ys' eq_refl); [reflexivity|intros; apply Hne; right; assumption|cbn in Hlt; lia]. }
  rewrite Hf. reflexivity.
Qed.
Print Assumptions C82_no_map.
(** Such a collection arises by one update with a single further scan. *)
Example C82_no_map_example : exists s0 s1, scans_init (ODict two_scans) = Ok s0 /\ scans_update s0 (ODict [("3", [("h", [1; 2]); ("e", [9; 9]); ("detector", [1; 1])])]%string) = Ok s1 /\
  pcolor s1 "h" "e" "detector" None = Err IndexError.
Proof.
  eexists _, _. split; [reflexivity|]. split; [reflexivity|].
  refine (C82_no_map (mkScans (Some _) (Some 1%nat)) "h" "e" "detector" None [[5; 5; 5]; [8; 8]; [9; 9]] 1%nat eq_refl _ _ _); [reflexivity| |right; cbn; lia].
  intros c [<-|[<-|[<-|[]]]]; discriminate.
Qed.

(** Theorems about the plots of a dataset (C83). *)
From Coq Require Import String List QArith Qabs Qround Bool Arith ZArith Lia Lqa.
From Verif Require Import Base SymModel PlotModel.
Import ListNotations.
Local Open Scope Q_scope.

Definition zq (n : nat) : Q := inject_Z (Z.of_nat n).
(** The values of a column are exactly the [n] positions [a, a + s, ..., a + (n - 1) s], in any order, each any number of times. *)
Definition regular (l : list Q) (a s : Q) (n : nat) : Prop :=
  0 < s /\ (forall v, In v l -> exists k, (k < n)%nat /\ v == a + zq k * s) /\ (forall k, (k < n)%nat -> exists v, In v l /\ v == a + zq k * s).
Definition four_decimals (s : Q) : Prop := exists m, s == inject_Z m / 10000.
(** [c] is [x] with its decimals cut off. *)
Definition cut (x : Q) (c : Z) : Prop := (0 <= x /\ inject_Z c <= x < inject_Z c + 1) \/ (x < 0 /\ inject_Z c - 1 < x <= inject_Z c).

(** ** Different values in rising order *)

Fixpoint rising (l : list Q) : Prop := match l with [] => True | a :: l' => (forall x, In x l' -> a < x) /\ rising l' end.
Definition holds (l : list Q) (v : Q) : Prop := exists x, In x l /\ x == v.

Lemma holds_cons : forall a l v, holds (a :: l) v <-> a == v \/ holds l v.
Proof.
  intros. split.
  - intros (x & [<-|Hin] & Hx); [left; exact Hx|right; exists x; auto].
  - intros [H|(x & Hin & Hx)]; [exists a; split; [left; reflexivity|exact H]|exists x; split; [right; exact Hin|exact Hx]].
Qed.
Lemma uinsert_spec : forall x l, rising l -> rising (uinsert x l) /\ forall v, holds (uinsert x l) v <-> x == v \/ holds l v.
Proof.
  induction l as [|y l IH]; intros H.
  - cbn. split; [tauto|]. intros v. rewrite holds_cons. tauto.
  - cbn [uinsert]. destruct H as [Hy Hl]. destruct (Qeq_bool x y) eqn:E.
    + apply Qeq_bool_iff in E. split; [split; assumption|]. intros v. rewrite holds_cons. split; [tauto|]. intros [H|H]; [left; rewrite <- E; exact H|exact H].
    + apply Qeq_bool_neq in E. destruct (Qle_bool x y) eqn:L.
      * apply Qle_bool_iff in L. assert (x < y) by (apply Qle_lteq in L; destruct L; [assumption|contradiction]).
        split; [|intros v; rewrite !holds_cons; tauto]. split; [|split; assumption]. intros z [<-|Hz]; [assumption|]. specialize (Hy z Hz). lra.
      * assert (y < x) by (apply Qnot_le_lt; intros C; apply Qle_bool_iff in C; congruence).
        destruct (IH Hl) as [H1 H2]. split.
        -- split; [|exact H1]. intros z Hz. destruct (proj1 (H2 z)) as [Hx|(w & Hw & Hwz)]; [exists z; split; [exact Hz|reflexivity]|rewrite <- Hx; assumption|]. specialize (Hy w Hw). rewrite <- Hwz. exact Hy.
        -- intros v. rewrite !holds_cons, H2. tauto.
Qed.
Lemma unique_spec : forall l, rising (unique l) /\ forall v, holds (unique l) v <-> holds l v.
Proof.
  induction l as [|x l [H1 H2]]; [cbn; tauto|]. destruct (uinsert_spec x (unique l) H1) as [H3 H4]. split; [exact H3|]. intros v. cbn [unique fold_right]. fold (unique l). rewrite H4, holds_cons, H2. tauto.
Qed.

Lemma zq_S : forall k, zq (S k) == zq k + 1.
Proof. intros. unfold zq. rewrite Nat2Z.inj_succ. unfold Z.succ. rewrite inject_Z_plus. reflexivity. Qed.
Lemma zq_0 : zq 0 == 0.
Proof. reflexivity. Qed.
Lemma zq_nonneg : forall k, 0 <= zq k.
Proof. intros. unfold zq. change 0 with (inject_Z 0). rewrite <- Zle_Qle. lia. Qed.

Lemma rising_regular : forall n u a s, 0 < s -> rising u -> (forall v, holds u v <-> exists k, (k < n)%nat /\ v == a + zq k * s) ->
  List.length u = n /\ forall k, (k < n)%nat -> nth k u 0 == a + zq k * s.
Proof.
  induction n as [|n IH]; intros u a s Hs Hr H.
  - destruct u as [|x u]; [split; [reflexivity|intros; lia]|]. destruct (proj1 (H x)) as (k & Hk & _); [apply holds_cons; left; reflexivity|lia].
  - destruct u as [|x u]. { destruct (proj2 (H a)) as (x & [] & _). exists 0%nat. split; [lia|]. rewrite zq_0. ring. }
    destruct Hr as [Hx Hr].
    assert (Hxa : x == a).
    { destruct (proj1 (H x)) as (k & Hk & Ek); [apply holds_cons; left; reflexivity|].
      assert (x >= a) by (rewrite Ek; pose proof (zq_nonneg k); assert (0 <= zq k * s) by (apply Qmult_le_0_compat; lra); lra).
      destruct (proj2 (H a)) as (w & Hw & Hwa); [exists 0%nat; split; [lia|rewrite zq_0; ring]|]. destruct Hw as [<-|Hw]; [exact Hwa|]. specialize (Hx w Hw). lra. }
    destruct (IH u (a + s) s Hs Hr) as [I1 I2].
    { intros v. split.
      - intros (w & Hw & Hwv). destruct (proj1 (H v)) as (k & Hk & Ek); [apply holds_cons; right; exists w; auto|]. destruct k as [|k].
        + specialize (Hx w Hw). exfalso. rewrite zq_0 in Ek. lra.
        + exists k. split; [lia|]. rewrite zq_S in Ek. rewrite Ek. ring.
      - intros (k & Hk & Ek). destruct (proj2 (H v)) as (w & [<-|Hw] & Hwv); [exists (S k); split; [lia|rewrite zq_S, Ek; ring]| |exists w; auto].
        exfalso. pose proof (zq_nonneg k). assert (0 <= zq k * s) by (apply Qmult_le_0_compat; lra). lra. }
    split; [cbn; rewrite I1; reflexivity|]. intros [|k] Hk; cbn [nth]; [rewrite zq_0, Hxa; ring|]. rewrite I2 by lia. rewrite zq_S. ring.
Qed.

Lemma unique_regular : forall l a s n, regular l a s n -> List.length (unique l) = n /\ forall k, (k < n)%nat -> nth k (unique l) 0 == a + zq k * s.
Proof.
  intros l a s n (Hs & H1 & H2). destruct (unique_spec l) as [Hr Hh]. apply rising_regular; [exact Hs|exact Hr|]. intros v. rewrite Hh. split.
  - intros (x & Hx & Hv). destruct (H1 x Hx) as (k & Hk & Ek). exists k. split; [exact Hk|]. rewrite <- Hv. exact Ek.
  - intros (k & Hk & Ek). destruct (H2 k Hk) as (x & Hx & Hxk). exists x. split; [exact Hx|]. rewrite Ek. exact Hxk.
Qed.

(** ** Rounding *)

Lemma floor_bounds : forall x c, inject_Z c <= x < inject_Z c + 1 -> Qfloor x = c.
Proof.
  intros x c [H1 H2]. pose proof (Qfloor_le x). pose proof (Qlt_floor x). rewrite inject_Z_plus in *. change (inject_Z 1) with 1 in *.
  assert (inject_Z (Qfloor x) < inject_Z (c + 1)) by (rewrite inject_Z_plus; change (inject_Z 1) with 1; lra).
  assert (inject_Z c < inject_Z (Qfloor x + 1)) by (rewrite inject_Z_plus; change (inject_Z 1) with 1; lra).
  rewrite <- Zlt_Qlt in *. lia.
Qed.
Lemma truncate_cut : forall x c, cut x c -> truncate x = c.
Proof.
  intros x c [[H0 H]|[H0 H]]; unfold truncate.
  - apply Qle_bool_iff in H0. rewrite H0. apply floor_bounds. exact H.
  - destruct (Qle_bool 0 x) eqn:E; [apply Qle_bool_iff in E; lra|]. rewrite (floor_bounds (- x) (- c)); [lia|]. rewrite inject_Z_opp. lra.
Qed.
Lemma truncate_comp : forall x y, x == y -> truncate x = truncate y.
Proof. intros x y H. unfold truncate. rewrite (Qfloor_comp x y H), (Qfloor_comp (- x) (- y)) by (rewrite H; reflexivity). assert (E : Qle_bool 0 x = Qle_bool 0 y) by (rewrite H; reflexivity). rewrite E. reflexivity. Qed.
Lemma round_exact : forall x m, x == inject_Z m / 10000 -> round_to 10000 x == x.
Proof.
  intros x m H. unfold round_to. assert (E : x * inject_Z 10000 == inject_Z m) by (rewrite H; change (inject_Z 10000) with 10000; field).
  assert (R : round_half_even (x * inject_Z 10000) = m).
  { unfold round_half_even. rewrite (Qfloor_comp _ _ E), Qfloor_Z.
    assert (C : (x * inject_Z 10000 - inject_Z m ?= 1 # 2) = Lt) by (apply Qlt_alt; rewrite E; setoid_replace (inject_Z m - inject_Z m) with 0 by ring; reflexivity). rewrite C. reflexivity. }
  rewrite R, H. reflexivity.
Qed.

(** ** The axes of the map *)

Lemma last_nth : forall (l : list Q), last l 0 = nth (List.length l - 1) l 0.
Proof.
  induction l as [|a [|b l] IH]; [reflexivity|reflexivity|].
  change (last (a :: b :: l) 0) with (last (b :: l) 0). rewrite IH. cbn [List.length]. replace (S (S (List.length l)) - 1)%nat with (S (S (List.length l) - 1)) by lia. reflexivity.
Qed.

Definition evenly (g : list Q) (a b : Q) (c : Z) : Prop :=
  Z.of_nat (List.length g) = c /\ forall i, (Z.of_nat i < c)%Z -> nth i g 0 == a + zq i * ((b - a) / inject_Z (c - 1)).

Lemma axis_spec : forall l a s n c, regular l a s n -> (2 <= n)%nat -> four_decimals s ->
  let b := a + zq (n - 1) * s in
  cut (b - a / s) (c - 1) ->
  ((c < 0)%Z -> axis l = Err ValueError) /\ ((2 <= c)%Z -> exists g, axis l = Ok g /\ evenly g a b c).
Proof.
  intros l a s n c Hreg Hn [m Hm] b Hc. destruct (unique_regular l a s n Hreg) as [Hlen Hk]. destruct Hreg as [Hs _].
  unfold axis. destruct (unique l) as [|u0 [|u1 u]] eqn:Eu; [cbn in Hlen; lia|cbn in Hlen; lia|].
  assert (H0 : u0 == a) by (pose proof (Hk 0%nat ltac:(lia)) as H; cbn [nth] in H; rewrite H; unfold zq; cbn [Z.of_nat inject_Z]; ring).
  assert (H1 : u1 == a + s) by (pose proof (Hk 1%nat ltac:(lia)) as H; cbn [nth] in H; rewrite H; unfold zq; cbn; ring).
  assert (Hl : last (u0 :: u1 :: u) 0 == b) by (rewrite last_nth, Hlen; apply Hk; lia).
  set (lst := last (u0 :: u1 :: u) 0) in *. clearbody lst.
  assert (Ha : Qabs (u1 - u0) == s) by (rewrite H1, H0, Qabs_pos; [ring|]; setoid_replace (a + s - a) with s by ring; lra).
  assert (Hst : round_to 10000 (Qabs (u1 - u0)) == s) by (rewrite (round_exact _ m); [exact Ha|rewrite Ha; exact Hm]).
  cbv zeta. set (st := round_to 10000 (Qabs (u1 - u0))) in *. clearbody st.
  destruct (Qeq_bool st 0) eqn:Ez; [apply Qeq_bool_iff in Ez; exfalso; lra|].
  assert (Et : truncate (lst - u0 / st) = (c - 1)%Z). { rewrite (truncate_comp _ (b - a / s)); [apply truncate_cut; exact Hc|]. rewrite Hl, H0, Hst. reflexivity. }
  rewrite Et. replace (c - 1 + 1)%Z with c by lia. unfold linspace. split; intros Hcc.
  - apply Z.ltb_lt in Hcc. rewrite Hcc. reflexivity.
  - destruct (Z.ltb_spec c 0); [lia|]. destruct (Z.eqb_spec c 1); [lia|]. eexists. split; [reflexivity|]. split; [rewrite map_length, seq_length; lia|].
    intros i Hi. set (f := fun i : nat => u0 + inject_Z (Z.of_nat i) * ((lst - u0) / inject_Z (c - 1))).
    rewrite (nth_indep _ 0 (f 0%nat)) by (rewrite map_length, seq_length; lia). rewrite map_nth, seq_nth by lia. cbn [plus]. unfold f, zq. rewrite Hl, H0. reflexivity.
Qed.

(** ** C83 *)

(** Maps of data on a regular grid whose steps have at most four decimals.  The number of positions drawn along an axis from [a] in
    steps of [s] to [b] is the integer part of [b - a / s] plus one, spread evenly from [a] to [b]; when it is negative the plot fails. *)
Theorem C83_map_axes : forall dx dy d x y z err xs ys zs a s n c a' s' n' c',
  lookup (cols d) x = Ok xs -> lookup (cols d) y = Ok ys -> values d z = Ok zs ->
  regular xs a s n -> regular ys a' s' n' -> (2 <= n)%nat -> (2 <= n')%nat -> four_decimals s -> four_decimals s' ->
  let b := a + zq (n - 1) * s in let b' := a' + zq (n' - 1) * s' in
  cut (b - a / s) (c - 1) -> cut (b' - a' / s') (c' - 1) ->
  ((c < 0)%Z -> plot dx dy d (Some x) (Some y) (Some z) None err = Err ValueError) /\
  ((2 <= c)%Z -> (c' < 0)%Z -> plot dx dy d (Some x) (Some y) (Some z) None err = Err ValueError) /\
  ((2 <= c)%Z -> (2 <= c')%Z -> exists gx gy, plot dx dy d (Some x) (Some y) (Some z) None err = Ok (Contour gx gy (zip3 xs ys zs)) /\
     evenly gx a b c /\ evenly gy a' b' c').
Proof.
  intros dx dy d x y z err xs ys zs a s n c a' s' n' c' Hx Hy Hz Rx Ry Hn Hn' F F' b b' Hc Hc'.
  destruct (axis_spec xs a s n c Rx Hn F Hc) as [A1 A2]. destruct (axis_spec ys a' s' n' c' Ry Hn' F' Hc') as [B1 B2].
  destruct (unique_regular xs a s n Rx) as [Lx _]. destruct (unique_regular ys a' s' n' Ry) as [Ly _].
  unfold plot. cbn [bind]. unfold plot_contour. rewrite Hx, Hy, Hz. cbn [bind].
  destruct (unique xs) as [|? [|? ?]]; [cbn in Lx; lia|cbn in Lx; lia|]. destruct (unique ys) as [|? [|? ?]]; [cbn in Ly; lia|cbn in Ly; lia|]. cbn [bind].
  split; [|split].
  - intros H. rewrite (A1 H). reflexivity.
  - intros H H'. destruct (A2 H) as (g & -> & _). cbn [bind]. rewrite (B1 H'). reflexivity.
  - intros H H'. destruct (A2 H) as (g & -> & E). destruct (B2 H') as (g' & -> & E'). cbn [bind]. exists g, g'. auto.
Qed.
Print Assumptions C83_map_axes.

Lemma cut_exact : forall k, (0 <= k)%Z -> forall x, x == inject_Z k -> cut x k.
Proof. intros k Hk x H. left. assert (0 <= inject_Z k) by (change 0 with (inject_Z 0); rewrite <- Zle_Qle; exact Hk). rewrite H. lra. Qed.
Lemma cut_exists : forall x, exists c, cut x c.
Proof.
  intros x. destruct (Qlt_le_dec x 0) as [H|H].
  - exists (Qceiling x). right. pose proof (Qle_ceiling x). pose proof (Qceiling_lt x) as L. unfold Z.sub in L. rewrite inject_Z_plus in L. change (inject_Z (Z.opp 1)) with (Qopp 1) in L. lra.
  - exists (Qfloor x). left. pose proof (Qfloor_le x). pose proof (Qlt_floor x) as L. rewrite inject_Z_plus in L. change (inject_Z 1) with 1 in L. lra.
Qed.

(** Steps of one along both axes: the positions drawn are the positions measured. *)
Theorem C83_unit_steps_show_measured_positions : forall dx dy d x y z err xs ys zs a n a' n',
  lookup (cols d) x = Ok xs -> lookup (cols d) y = Ok ys -> values d z = Ok zs ->
  regular xs a 1 n -> regular ys a' 1 n' -> (2 <= n)%nat -> (2 <= n')%nat ->
  exists gx gy, plot dx dy d (Some x) (Some y) (Some z) None err = Ok (Contour gx gy (zip3 xs ys zs)) /\
    List.length gx = n /\ (forall i, (i < n)%nat -> nth i gx 0 == a + zq i) /\ List.length gy = n' /\ (forall i, (i < n')%nat -> nth i gy 0 == a' + zq i).
Proof.
  intros dx dy d x y z err xs ys zs a n a' n' Hx Hy Hz Rx Ry Hn Hn'.
  assert (F : four_decimals 1) by (exists 10000%Z; reflexivity).
  assert (Hcut : forall a n, (2 <= n)%nat -> cut (a + zq (n - 1) * 1 - a / 1) (Z.of_nat n - 1)).
  { intros a0 n0 H. apply cut_exact; [lia|]. unfold zq. rewrite Nat2Z.inj_sub by lia. change (Z.of_nat 1) with 1%Z. field. }
  destruct (C83_map_axes dx dy d x y z err xs ys zs a 1 n (Z.of_nat n) a' 1 n' (Z.of_nat n') Hx Hy Hz Rx Ry Hn Hn' F F (Hcut a n Hn) (Hcut a' n' Hn')) as (_ & _ & H).
  destruct (H ltac:(lia) ltac:(lia)) as (gx & gy & Hp & [L1 E1] & [L2 E2]). exists gx, gy.
  assert (Hstep : forall a n i, (2 <= n)%nat -> a + zq i * ((a + zq (n - 1) * 1 - a) / inject_Z (Z.of_nat n - 1)) == a + zq i).
  { intros a0 n0 i H0. unfold zq at 2. rewrite Nat2Z.inj_sub by lia. change (Z.of_nat 1) with 1%Z. field. change 0 with (inject_Z 0). intros C. assert (D := proj1 (inject_Z_injective _ _) C). clear - D H0. lia. }
  split; [exact Hp|]. split; [lia|]. split; [intros i Hi; rewrite E1 by lia; apply Hstep; exact Hn|]. split; [lia|]. intros i Hi; rewrite E2 by lia; apply Hstep; exact Hn'.
Qed.
Print Assumptions C83_unit_steps_show_measured_positions.

(** An axis measured from zero in steps below one is drawn with fewer positions than were measured. *)
Theorem C83_fine_steps_lose_positions : forall dx dy d x y z err xs ys zs s n a' n',
  lookup (cols d) x = Ok xs -> lookup (cols d) y = Ok ys -> values d z = Ok zs ->
  regular xs 0 s n -> regular ys a' 1 n' -> (2 <= n)%nat -> (2 <= n')%nat -> four_decimals s -> s < 1 -> 1 <= zq (n - 1) * s ->
  exists gx gy, plot dx dy d (Some x) (Some y) (Some z) None err = Ok (Contour gx gy (zip3 xs ys zs)) /\ (List.length gx < n)%nat.
Proof.
  intros dx dy d x y z err xs ys zs s n a' n' Hx Hy Hz Rx Ry Hn Hn' F Hs1 Hlong.
  assert (F1 : four_decimals 1) by (exists 10000%Z; reflexivity).
  assert (Hs : 0 < s) by apply Rx.
  destruct (cut_exists (0 + zq (n - 1) * s - 0 / s)) as [c0 Hc0].
  assert (Hval : 0 + zq (n - 1) * s - 0 / s == zq (n - 1) * s) by (field; lra).
  assert (Hc1 : cut (0 + zq (n - 1) * s - 0 / s) (c0 + 1 - 1)) by (replace (c0 + 1 - 1)%Z with c0 by lia; exact Hc0).
  assert (Hcut : cut (a' + zq (n' - 1) * 1 - a' / 1) (Z.of_nat n' - 1)).
  { apply cut_exact; [lia|]. unfold zq. rewrite Nat2Z.inj_sub by lia. change (Z.of_nat 1) with 1%Z. field. }
  destruct (C83_map_axes dx dy d x y z err xs ys zs 0 s n (c0 + 1) a' 1 n' (Z.of_nat n') Hx Hy Hz Rx Ry Hn Hn' F F1 Hc1 Hcut) as (_ & _ & H).
  assert (Hz1 : 1 <= zq (n - 1)) by (unfold zq; change 1 with (inject_Z 1); rewrite <- Zle_Qle; lia).
  assert (Hlt : zq (n - 1) * s < zq (n - 1)) by nra.
  destruct Hc0 as [[P0 [P1 P2]]|[P0 _]]; rewrite Hval in *; [|lra].
  assert (B1 : (0 < c0)%Z) by (rewrite Zlt_Qlt; change (inject_Z 0) with 0; lra).
  assert (B2 : (c0 < Z.of_nat (n - 1))%Z) by (rewrite Zlt_Qlt; fold (zq (n - 1)); lra).
  destruct (H ltac:(lia) ltac:(lia)) as (gx & gy & Hp & [L1 _] & _). exists gx, gy. split; [exact Hp|]. lia.
Qed.
Print Assumptions C83_fine_steps_lose_positions.

(** Data measured from [a] to [b] in steps of [s] with [b + 2 <= a / s] cannot be drawn, whatever the other axis holds, as long as it
    has two different values; an axis with a single value cannot be drawn either. *)
Theorem C83_no_map_away_from_zero : forall dx dy d x y z err xs ys zs a s n v v',
  lookup (cols d) x = Ok xs -> lookup (cols d) y = Ok ys -> values d z = Ok zs ->
  regular xs a s n -> (2 <= n)%nat -> four_decimals s -> a + zq (n - 1) * s + 2 <= a / s ->
  In v ys -> In v' ys -> ~ v == v' -> plot dx dy d (Some x) (Some y) (Some z) None err = Err ValueError.
Proof.
  intros dx dy d x y z err xs ys zs a s n v v' Hx Hy Hz Rx Hn F Hbig Hv Hv' Hne.
  destruct (cut_exists (a + zq (n - 1) * s - a / s)) as [c0 Hc0].
  assert (Hc1 : cut (a + zq (n - 1) * s - a / s) (c0 + 1 - 1)) by (replace (c0 + 1 - 1)%Z with c0 by lia; exact Hc0).
  destruct (axis_spec xs a s n (c0 + 1) Rx Hn F Hc1) as [A1 _]. destruct (unique_regular xs a s n Rx) as [Lx _].
  assert (Hneg : (c0 + 1 < 0)%Z).
  { destruct Hc0 as [[P _]|[_ [P _]]]; [lra|]. assert (inject_Z c0 < inject_Z (-1)) by (change (inject_Z (-1)) with (- (1)); lra). rewrite <- Zlt_Qlt in H. lia. }
  unfold plot. cbn [bind]. unfold plot_contour. rewrite Hx, Hy, Hz. cbn [bind].
  destruct (unique xs) as [|? [|? ?]]; [cbn in Lx; lia|cbn in Lx; lia|].
  destruct (unique_spec ys) as [_ Hu]. destruct (proj2 (Hu v)) as (w & Hw & Ew); [exists v; split; [exact Hv|reflexivity]|]. destruct (proj2 (Hu v')) as (w' & Hw' & Ew'); [exists v'; split; [exact Hv'|reflexivity]|].
  destruct (unique ys) as [|p1 [|p2 p3]]; [destruct Hw| |].
  - destruct Hw as [<-|[]]. destruct Hw' as [<-|[]]. exfalso. apply Hne. rewrite <- Ew, <- Ew'. reflexivity.
  - cbn [bind]. rewrite (A1 Hneg). reflexivity.
Qed.
Print Assumptions C83_no_map_away_from_zero.

Theorem C83_no_map_of_single_line : forall dx dy d x y z err xs ys zs v,
  lookup (cols d) x = Ok xs -> lookup (cols d) y = Ok ys -> values d z = Ok zs ->
  (forall w, In w xs -> w == v) \/ (forall w, In w ys -> w == v) -> plot dx dy d (Some x) (Some y) (Some z) None err = Err IndexError.
Proof.
  intros dx dy d x y z err xs ys zs v Hx Hy Hz Hc.
  assert (H1 : forall l, (forall w, In w l -> w == v) -> forall p q r, unique l <> p :: q :: r).
  { intros l Hl p q r E. destruct (unique_spec l) as [Hr Hh]. rewrite E in *. destruct Hr as [Hp _]. specialize (Hp q ltac:(left; reflexivity)).
    assert (forall w, In w (p :: q :: r) -> w == v). { intros w Hw. destruct (proj1 (Hh w)) as (w' & Hw' & <-); [exists w; split; [exact Hw|reflexivity]|]. apply Hl. exact Hw'. }
    pose proof (H p ltac:(left; reflexivity)). pose proof (H q ltac:(right; left; reflexivity)). lra. }
  unfold plot. cbn [bind]. unfold plot_contour. rewrite Hx, Hy, Hz. cbn [bind].
  destruct (unique xs) as [|p [|q r]] eqn:E; [reflexivity|reflexivity|]. cbn [bind].
  destruct Hc as [Hc|Hc]; [exfalso; exact (H1 xs Hc _ _ _ E)|].
  destruct (unique ys) as [|p' [|q' r']] eqn:E'; [reflexivity|reflexivity|exfalso; exact (H1 ys Hc _ _ _ E')].
Qed.
Print Assumptions C83_no_map_of_single_line.

(** The points drawn in space are the rows of the dataset with a positive value, in order, and no others. *)
Theorem C83_volume_shows_positive_rows : forall dx dy d x y z w err xs ys zs ws,
  lookup (cols d) x = Ok xs -> lookup (cols d) y = Ok ys -> lookup (cols d) z = Ok zs -> values d w = Ok ws ->
  List.length ys = List.length xs -> List.length zs = List.length xs -> List.length ws = List.length xs ->
  exists pts, plot dx dy d (Some x) (Some y) (Some z) (Some w) err = Ok (Volume pts) /\
    forall a b c v, In (a, b, c, v) pts <-> exists i, (i < List.length xs)%nat /\ a = nth i xs 0 /\ b = nth i ys 0 /\ c = nth i zs 0 /\ v = nth i ws 0 /\ 0 < v.
Proof.
  intros dx dy d x y z w err xs ys zs ws Hx Hy Hz Hw L1 L2 L3. unfold plot. cbn [bind]. unfold plot_volume. rewrite Hx, Hy, Hz, Hw. cbn [bind].
  eexists. split; [reflexivity|]. intros a b c v. rewrite filter_In. cbn [snd].
  assert (Hpos : negb (Qle_bool v 0) = true <-> 0 < v).
  { destruct (Qle_bool v 0) eqn:E; cbn; split; intros H; try discriminate; try reflexivity; [apply Qle_bool_iff in E; lra|]. apply Qnot_le_lt. intros C. apply Qle_bool_iff in C. congruence. }
  rewrite Hpos. unfold zip3. clear Hx Hy Hz Hw Hpos.
  assert (E : forall i, (i < List.length xs)%nat -> nth i (combine (combine (combine xs ys) zs) ws) (0, 0, 0, 0) = (nth i xs 0, nth i ys 0, nth i zs 0, nth i ws 0)).
  { intros i Hi. rewrite !combine_nth; try reflexivity; rewrite ?combine_length; lia. }
  split.
  - intros [Hin Hv]. apply (In_nth _ _ (0, 0, 0, 0)) in Hin. destruct Hin as (i & Hi & Hn). rewrite !combine_length in Hi. assert (Hi' : (i < List.length xs)%nat) by lia.
    rewrite E in Hn by exact Hi'. injection Hn as <- <- <- <-. exists i. auto 10.
  - intros (i & Hi & -> & -> & -> & -> & Hv). split; [|exact Hv]. rewrite <- E by exact Hi. apply nth_In. rewrite !combine_length. lia.
Qed.
Print Assumptions C83_volume_shows_positive_rows.

(** ** Concrete cases *)

(** Six points in steps of one from (-1, 2): drawn where measured. *)
Definition unit_data : pdata :=
  mkPdata [("h", [-1; 0; 1; -1; 0; 1]); ("k", [2; 2; 2; 3; 3; 3])]%string [5; 6; 7; 8; 9; 10] [1; 1; 1; 1; 1; 1].
Example C83_unit_example : plot None None unit_data (Some "h"%string) (Some "k"%string) (Some "intensity"%string) None true =
  Ok (Contour [-1 + 0 * (2 / 2); -1 + 1 * (2 / 2); -1 + 2 * (2 / 2)] [2 + 0 * (1 / 1); 2 + 1 * (1 / 1)] (zip3 [-1; 0; 1; -1; 0; 1] [2; 2; 2; 3; 3; 3] [5; 6; 7; 8; 9; 10])).
Proof. vm_compute. reflexivity. Qed.
Example C83_unit_regular : regular [-1; 0; 1; -1; 0; 1] (-1) 1 3 /\ four_decimals 1.
Proof.
  split; [|exists 10000%Z; reflexivity]. split; [reflexivity|]. split.
  - intros v Hv. cbn in Hv. decompose [or] Hv; try tauto; subst v; (exists 0%nat; split; [lia|reflexivity]) || (exists 1%nat; split; [lia|reflexivity]) || (exists 2%nat; split; [lia|reflexivity]).
  - intros [|[|[|k]]] Hk; try lia; [exists (-1)|exists 0|exists 1]; (split; [cbn; tauto|reflexivity]).
Qed.

(** Four positions 0, 1/2, 1, 3/2 are drawn as two. *)
Definition half_data : pdata := mkPdata [("h", [0; 1 # 2; 1; 3 # 2; 0; 1 # 2; 1; 3 # 2]); ("k", [2; 2; 2; 2; 3; 3; 3; 3])]%string [5; 6; 7; 8; 9; 10; 4; 3] [1; 1; 1; 1; 1; 1; 1; 1].
Example C83_fine_example : exists gx gy pts, plot None None half_data (Some "h"%string) (Some "k"%string) (Some "intensity"%string) None true = Ok (Contour gx gy pts) /\ List.length gx = 2%nat.
Proof. do 3 eexists. split; [vm_compute; reflexivity|reflexivity]. Qed.
Example C83_fine_regular : regular [0; 1 # 2; 1; 3 # 2; 0; 1 # 2; 1; 3 # 2] 0 (1 # 2) 4 /\ four_decimals (1 # 2) /\ 1 <= zq (4 - 1) * (1 # 2).
Proof.
  split; [|split; [exists 5000%Z; reflexivity|vm_compute; discriminate]]. split; [reflexivity|]. split.
  - intros v Hv. cbn in Hv. decompose [or] Hv; try tauto; subst v; (exists 0%nat; split; [lia|reflexivity]) || (exists 1%nat; split; [lia|reflexivity]) || (exists 2%nat; split; [lia|reflexivity]) || (exists 3%nat; split; [lia|reflexivity]).
  - intros [|[|[|[|k]]]] Hk; try lia; [exists 0|exists (1 # 2)|exists 1|exists (3 # 2)]; (split; [cbn; tauto|reflexivity]).
Qed.

(** Positions 1, 1.1, 1.2 cannot be drawn. *)
Definition tenth_data : pdata := mkPdata [("h", [1; 11 # 10; 12 # 10; 1; 11 # 10; 12 # 10]); ("k", [2; 2; 2; 3; 3; 3])]%string [5; 6; 7; 8; 9; 10] [1; 1; 1; 1; 1; 1].
Example C83_away_example : plot None None tenth_data (Some "h"%string) (Some "k"%string) (Some "intensity"%string) None true = Err ValueError.
Proof. vm_compute. reflexivity. Qed.
Example C83_away_regular : regular [1; 11 # 10; 12 # 10; 1; 11 # 10; 12 # 10] 1 (1 # 10) 3 /\ four_decimals (1 # 10) /\ 1 + zq (3 - 1) * (1 # 10) + 2 <= 1 / (1 # 10).
Proof.
  split; [|split; [exists 1000%Z; reflexivity|vm_compute; discriminate]]. split; [reflexivity|]. split.
  - intros v Hv. cbn in Hv. decompose [or] Hv; try tauto; subst v; (exists 0%nat; split; [lia|reflexivity]) || (exists 1%nat; split; [lia|reflexivity]) || (exists 2%nat; split; [lia|reflexivity]).
  - intros [|[|[|k]]] Hk; try lia; [exists 1|exists (11 # 10)|exists (12 # 10)]; (split; [cbn; tauto|reflexivity]).
Qed.

(** A scan along h at fixed k cannot be drawn as a map; in space, the row without counts is hidden. *)
Definition line_data : pdata := mkPdata [("h", [1; 2; 3]); ("k", [2; 2; 2]); ("l", [0; 0; 1])]%string [5; 0; 7] [1; 1; 1].
Example C83_line_example :
  plot None None line_data (Some "h"%string) (Some "k"%string) (Some "intensity"%string) None true = Err IndexError /\
  plot None None line_data (Some "h"%string) (Some "k"%string) (Some "l"%string) (Some "intensity"%string) true = Ok (Volume [(1, 2, 0, 5); (3, 2, 1, 7)]).
Proof. split; vm_compute; reflexivity. Qed.

(** Lines: the points are the rows; the bars of the intensity are its errors, those of another column belong to counts. *)
Theorem C83_line_shows_rows : forall d x y show xs ys,
  lookup (cols d) x = Ok xs -> values d y = Ok ys -> List.length ys = List.length xs -> List.length (err d) = List.length xs ->
  exists pts bars, plot (Some x) (Some y) d None None None None show = Ok (Line pts bars) /\ List.length pts = List.length xs /\
    (forall i, (i < List.length xs)%nat -> nth i pts (0, 0) = (nth i xs 0, nth i ys 0)) /\
    (show = false -> bars = None) /\
    (show = true -> exists b, bars = Some b /\ forall i, (i < List.length xs)%nat -> nth i b 0 == if String.eqb y "intensity" then nth i (err d) 0 * nth i (err d) 0 else nth i ys 0).
Proof.
  intros d x y show xs ys Hx Hy L1 L2. unfold plot. cbn [bind]. unfold plot_line. rewrite Hx, Hy. cbn [bind]. do 2 eexists. split; [reflexivity|].
  split; [rewrite combine_length; lia|]. split; [intros i Hi; apply combine_nth; lia|]. split; intros ->; [reflexivity|]. eexists. split; [reflexivity|].
  intros i Hi. destruct (String.eqb y "intensity"); [|reflexivity]. rewrite (nth_indep _ 0 ((fun e => e * e) 0)) by (rewrite map_length; lia). rewrite (map_nth (fun e => e * e)). reflexivity.
Qed.
Print Assumptions C83_line_shows_rows.

(** C78: warnings about Currat-Axe scattering.  C79: aluminium rings. *)
From Coq Require Import List ZArith Reals Lra Lia Psatz Bool Permutation.
From Verif Require Import Base LinAlg LatticeModel LatticeProof LatticeProps EnergyModel EnergyProps TasModel TasCase AngleModel AngleProps SpurionModel.
From Verif Require MatModel EllipseProps.
Import ListNotations.
Local Open Scope R_scope.

(** * The points of the scan *)
(** Everything given in whole numbers: the components of u and v and both coordinates. *)
Definition whole (u v : arr3) (qx qy : num) : Prop :=
  (exists a b c, u = AI a b c) /\ (exists a b c, v = AI a b c) /\ (exists x, qx = NInt x) /\ (exists y, qy = NInt y).
Definition cut (e w : R) : Prop := (exists z, w = IZR z) /\ Rabs (e - w) < 1 /\ Rabs w <= Rabs e /\ 0 <= e * w.
(** One end of a scan: qx u + qy v, and the energy, cut to a whole number if everything else is whole. *)
Definition end_point (u v : arr3) (p : num * num * num) (x : hkle) : Prop :=
  let '(qx, qy, e) := p in
  h_q x = vadd (vscale (val qx) (floats u)) (vscale (val qy) (floats v)) /\
  (whole u v qx qy -> cut (val e) (h_w x)) /\ (~ whole u v qx qy -> h_w x = val e).
Lemma trunc_cut r : cut r (IZR (trunc r)).
Proof.
  unfold cut, trunc. split; [eexists; reflexivity|]. destruct (Rle_dec 0 r) as [P|N].
  - destruct (base_Int_part r) as [A B]. assert (Z0 : 0 <= IZR (Int_part r)). { apply IZR_le. assert (-1 < Int_part r)%Z by (apply lt_IZR; lra). lia. }
    rewrite Rabs_right by lra. rewrite !Rabs_right by lra. split; [lra|]. split; [lra|]. apply Rmult_le_pos; lra.
  - destruct (base_Int_part (- r)) as [A B]. rewrite opp_IZR. assert (Z0 : 0 <= IZR (Int_part (- r))). { apply IZR_le. assert (-1 < Int_part (- r))%Z by (apply lt_IZR; lra). lia. }
    rewrite (Rabs_left1 (r - _)) by lra. rewrite (Rabs_left1 r) by lra. rewrite Rabs_Ropp, Rabs_right by lra. split; [lra|]. split; [lra|]. nra.
Qed.
Lemma corner_ok u v p : end_point u v p (corner u v p).
Proof.
  destruct p as [[qx qy] e]. unfold end_point, corner, whole.
  assert (F : forall x, IZR x - IZR x = 0) by (intros; ring).
  destruct u as [a b c|u]; [destruct v as [a' b' c'|v]; [destruct qx as [x|x]; [destruct qy as [y|y]|]|]|];
    try (cbn [h_q h_w]; split; [reflexivity|]; split; [intros ((?&?&?&A)&(?&?&?&B)&(?&C)&(?&D)); discriminate|reflexivity]).
  cbn [h_q h_w floats val]. split; [unfold vadd, vscale; cbn [vx vy vz]; rewrite !plus_IZR, !mult_IZR; f_equal; ring|]. split.
  - intros _. destruct e as [z|r]; cbn [val]; [|apply trunc_cut]. unfold cut. rewrite F, Rabs_R0. split; [eexists; reflexivity|]. split; [lra|]. split; [lra|]. assert (A := Rle_0_sqr (IZR z)). unfold Rsqr in A. lra.
  - intros N. exfalso. apply N. split; [exists a, b, c; reflexivity|]. split; [exists a', b', c'; reflexivity|]. split; eexists; reflexivity.
Qed.
Lemma hkle_eq p q : h_q p = h_q q -> h_w p = h_w q -> p = q.
Proof. destruct p, q. simpl. intros -> ->. reflexivity. Qed.
Lemma cut_unique e w w' : cut e w -> cut e w' -> w = w'.
Proof.
  assert (Aux : forall e z z', 0 <= e -> cut e (IZR z) -> cut e (IZR z') -> (z <= z')%Z).
  { clear. intros e z z' P (_ & A & B & C) (_ & A' & B' & C'). rewrite (Rabs_right e) in * by lra. apply Rabs_def2 in A'. assert (IZR z <= e) by (eapply Rle_trans; [apply Rle_abs|exact B]). assert (z < z' + 1)%Z; [|lia]. apply lt_IZR. rewrite plus_IZR. lra. }
  assert (Neg : forall e z, cut e (IZR z) -> cut (- e) (IZR (- z))).
  { clear. intros e z (_ & A & B & C). split; [eexists; reflexivity|]. rewrite opp_IZR, !Rabs_Ropp. replace (- e - - IZR z) with (- (e - IZR z)) by ring. rewrite Rabs_Ropp. split; [exact A|]. split; [exact B|]. lra. }
  intros H H'. destruct (proj1 H) as [z ->]. destruct (proj1 H') as [z' ->]. apply f_equal. destruct (Rle_lt_dec 0 e) as [P|N].
  - assert (A1 := Aux e z z' P H H'). assert (A2 := Aux e z' z P H' H). lia.
  - assert (A1 := Aux (- e) (- z)%Z (- z')%Z ltac:(lra) (Neg _ _ H) (Neg _ _ H')). assert (A2 := Aux (- e) (- z')%Z (- z)%Z ltac:(lra) (Neg _ _ H') (Neg _ _ H)). lia.
Qed.
Lemma whole_dec u v qx qy : whole u v qx qy \/ ~ whole u v qx qy.
Proof.
  unfold whole. destruct u as [a b c|u]; [destruct v as [a' b' c'|v]; [destruct qx as [x|x]; [destruct qy as [y|y]|]|]|];
    try (right; intros ((?&?&?&A)&(?&?&?&B)&(?&C)&(?&D)); discriminate). left. split; [exists a, b, c; reflexivity|]. split; [exists a', b', c'; reflexivity|]. split; eexists; reflexivity.
Qed.
Lemma end_unique u v p x y : end_point u v p x -> end_point u v p y -> x = y.
Proof.
  destruct p as [[qx qy] e]. intros (E & A & B) (E' & A' & B'). apply hkle_eq; [rewrite E; symmetry; exact E'|]. destruct (whole_dec u v qx qy) as [H|H].
  - exact (cut_unique _ _ _ (A H) (A' H)).
  - rewrite (B H). symmetry. exact (B' H).
Qed.
(** The k-th of n points from a to b, both included. *)
Definition on_line (a b : hkle) (n : Z) (k : nat) (p : hkle) : Prop :=
  (k = 0%nat -> p = a) /\ (Z.of_nat k = (n - 1)%Z -> (0 < k)%nat -> p = b) /\
  IZR (n - 1) * (h_w p - h_w a) = INR k * (h_w b - h_w a) /\
  vscale (IZR (n - 1)) (vadd (h_q p) (vscale (-1) (h_q a))) = vscale (INR k) (vadd (h_q b) (vscale (-1) (h_q a))).
Lemma between_0 a b : between a b 0 = a.
Proof. apply hkle_eq; [|simpl; ring]. unfold between, vadd, vscale. simpl. apply v3_eq; simpl; ring. Qed.
Lemma between_1 a b : between a b 1 = b.
Proof. apply hkle_eq; [|simpl; ring]. unfold between, vadd, vscale. simpl. apply v3_eq; simpl; ring. Qed.
Lemma between_frac a b n k : (1 < n)%Z -> on_line a b n k (between a b (INR k / IZR (n - 1))).
Proof.
  intros Ln. assert (P : 0 < IZR (n - 1)) by (apply IZR_lt; lia). split; [|split; [|split]].
  - intros ->. simpl INR. unfold Rdiv. rewrite Rmult_0_l. apply between_0.
  - intros E _. rewrite INR_IZR_INZ, E. replace (IZR (n - 1) / IZR (n - 1)) with 1 by (field; lra). apply between_1.
  - simpl. field. lra.
  - unfold between, vadd, vscale. simpl. apply v3_eq; simpl; field; lra.
Qed.
Lemma fractions_ok a b n ds : fractions n = Ok ds -> List.length ds = Z.to_nat n /\ forall k d, nth_error ds k = Some d -> on_line a b n k (between a b d).
Proof.
  unfold fractions. destruct (Z.ltb_spec n 0) as [L|L]; [discriminate|]. destruct (Z.eqb_spec n 1) as [->|N]; intros E; injection E as <-.
  - split; [reflexivity|]. intros [|k] d H; [|destruct k; discriminate]. injection H as <-. rewrite between_0. split; [reflexivity|]. split; [lia|]. split; [simpl; ring|]. unfold vadd, vscale. simpl. apply v3_eq; simpl; ring.
  - rewrite map_length, seq_length. split; [reflexivity|]. intros k d H. assert (Lk : (k < Z.to_nat n)%nat). { rewrite <- (seq_length (Z.to_nat n) 0), <- (map_length (fun k => INR k / IZR (n - 1))). apply nth_error_Some. rewrite H. discriminate. }
    rewrite nth_error_map, (nth_error_nth' (seq 0 (Z.to_nat n)) 0%nat) in H by (rewrite seq_length; exact Lk). rewrite seq_nth in H by exact Lk. injection H as <-. apply between_frac. lia.
Qed.

Lemma Ok_inj {A} (x y : A) : Ok x = Ok y -> x = y.
Proof. intros E. injection E. auto. Qed.

(** * Which points are warned about *)
(** Sample angle and scattering angle, in degrees, that the instrument computes; nan is [None]. *)
Definition angles_at (i : spect) (p : hkle) (a3 a4 : option R) : Prop :=
  exists Q, outcome (sp_c i) (sp_t i) (sp_l i) (sp_o1 i) (sp_o2 i) (h_q p) (h_w p) a3 a4 Q.
Definition close (tol : R) (x y : option R) : Prop := exists a b, x = Some a /\ y = Some b /\ Rabs (a - b) <= tol.
Lemma near_ok tol x y : near tol x y = true <-> close tol x y.
Proof.
  unfold near, close. destruct x as [a|], y as [b|]; try (split; [discriminate|intros (?&?&?&?&?); discriminate]). destruct Rle_dec as [L|N].
  - split; [|reflexivity]. intros _. exists a, b. auto.
  - split; [discriminate|]. intros (x&y&E1&E2&L). injection E1 as ->. injection E2 as ->. contradiction.
Qed.
Lemma angles34_ok i p a3 a4 : angles34 i p = Ok (a3, a4) <-> angles_at i p a3 a4.
Proof.
  unfold angles34, angles_at, outcome. split.
  - destruct (get_angles_and_Q _ _ _ _ _ _ _) as [[l Q]|e] eqn:E; [|discriminate]. cbn [bind fst]. intros H. injection H as <- <-.
    assert (L : exists a1 a2 a3 a4 a5 a6, l = [a1; a2; a3; a4; a5; a6]).
    { revert E. unfold get_angles_and_Q. destruct (spacing (x_tau (t_mono (sp_t i)))); [|discriminate]. cbn [bind]. destruct (spacing (x_tau (t_ana (sp_t i)))); [|discriminate]. cbn [bind map]. intros E. injection E as <- _. do 6 eexists. reflexivity. }
    destruct L as (a1 & a2 & a3 & a4 & a5 & a6 & ->). exists Q, a1, a2, a5, a6. reflexivity.
  - intros (Q & a1 & a2 & a5 & a6 & ->). reflexivity.
Qed.
Lemma map_res_ok {A B} (f : A -> res B) l r : map_res f l = Ok r <-> Forall2 (fun x y => f x = Ok y) l r.
Proof.
  revert r. induction l as [|x l IH]; intros r; simpl.
  - split; [intros E; injection E as <-; constructor|intros H; inversion H; reflexivity].
  - destruct (f x) as [y|e] eqn:E.
    + destruct (map_res f l) as [ys|e'] eqn:E'.
      * split; [intros H; injection H as <-; constructor; [exact E|apply IH; reflexivity]|]. intros H. inversion H as [|? y' ? ys' E1 H']; subst. rewrite E in E1. injection E1 as ->. apply IH in H'. injection H' as ->. reflexivity.
      * split; [discriminate|]. intros H. inversion H as [|? y' ? ys' E1 H']; subst. apply IH in H'. discriminate.
    + split; [discriminate|]. intros H. inversion H as [|? y' ? ys' E1 H']; subst. congruence.
Qed.
Lemma Forall2_combine {A B} (P : A -> B -> Prop) l r x y : Forall2 P l r -> In (x, y) (combine l r) -> In x l /\ P x y.
Proof. induction 1 as [|a b l r Pa H IH]; simpl; [contradiction|]. intros [E|I]; [injection E as -> ->; auto|]. destruct (IH I). auto. Qed.
Lemma Forall2_in_l {A B} (P : A -> B -> Prop) l r x : Forall2 P l r -> In x l -> exists y, In (x, y) (combine l r) /\ P x y.
Proof. induction 1 as [|a b l r Pa H IH]; simpl; [contradiction|]. intros [->|I]; [exists b; auto|]. destruct (IH I) as (y & J & Py). exists y. auto. Qed.
Lemma Forall2_in_r {A B} (P : A -> B -> Prop) l r y : Forall2 P l r -> In y r -> exists x, In x l /\ P x y.
Proof. induction 1 as [|a b l r Pa H IH]; simpl; [contradiction|]. intros [->|I]; [exists a; auto|]. destruct (IH I) as (x & J & Py). exists x. auto. Qed.
Lemma Forall2_in_l' {A B} (P : A -> B -> Prop) l r x : Forall2 P l r -> In x l -> exists y, In y r /\ P x y.
Proof. induction 1 as [|a b l r Pa H IH]; simpl; [contradiction|]. intros [->|I]; [exists b; auto|]. destruct (IH I) as (y & J & Py). exists y. auto. Qed.
Lemma angles_fun i p a3 a4 b3 b4 : angles_at i p a3 a4 -> angles_at i p b3 b4 -> a3 = b3 /\ a4 = b4.
Proof. intros A B. apply angles34_ok in A. apply angles34_ok in B. rewrite A in B. injection B as -> ->. auto. Qed.

(** A warning names exactly those points of the scan whose two angles are within the tolerance of those of one of the peaks at
    energy 0. *)
Theorem C78_warnings : forall i from to n peaks tol W, currat_axe_peaks i from to n peaks tol = Ok W ->
  exists a b pts, end_point (sp_u i) (sp_v i) from a /\ end_point (sp_u i) (sp_v i) to b /\
  List.length pts = Z.to_nat n /\ (forall k p, nth_error pts k = Some p -> on_line a b n k p) /\
  (forall k p, nth_error pts k = Some p -> exists a3 a4, angles_at i p a3 a4) /\
  (forall l, In l peaks -> exists h k m b3 b4, l = [h; k; m] /\ angles_at i (mkH (V h k m) 0) b3 b4) /\
  forall p, In p W <-> In p pts /\ exists h k m a3 a4 b3 b4, In [h; k; m] peaks /\ angles_at i p a3 a4 /\ angles_at i (mkH (V h k m) 0) b3 b4 /\ close tol b3 a3 /\ close tol b4 a4.
Proof.
  intros i from to n peaks tol W. unfold currat_axe_peaks. set (a := corner _ _ from). set (b := corner _ _ to). destruct (fractions n) as [ds|e] eqn:Ef; [|discriminate]. cbn [bind].
  destruct (map_res (angles34 i) (map (between a b) ds)) as [an|e] eqn:Ea; [|discriminate]. cbn [bind]. destruct (map_res (fun l => bind (peak_of l) (angles34 i)) peaks) as [br|e] eqn:Eb; [|discriminate]. cbn [bind]. intros E. injection E as <-.
  apply map_res_ok in Ea. apply map_res_ok in Eb. destruct (fractions_ok a b n ds Ef) as [Ln On]. exists a, b, (map (between a b) ds). split; [apply corner_ok|]. split; [apply corner_ok|]. split; [rewrite map_length; exact Ln|]. split; [|split; [|split]].
  - intros k p H. rewrite nth_error_map in H. destruct (nth_error ds k) as [d|] eqn:Ed; [|discriminate]. injection H as <-. apply On. exact Ed.
  - intros k p H. apply nth_error_In in H. destruct (Forall2_in_l' _ _ _ _ Ea H) as ([a3 a4] & _ & Ep). exists a3, a4. apply angles34_ok. exact Ep.
  - intros l I. destruct (Forall2_in_l' _ _ _ _ Eb I) as ([b3 b4] & _ & Ep). destruct l as [|h [|k [|m [|z l]]]]; try discriminate. exists h, k, m, b3, b4. split; [reflexivity|]. apply angles34_ok. exact Ep.
  - intros p. rewrite in_flat_map. split.
    + intros ([q [a3 a4]] & I & J). apply in_flat_map in J. destruct J as ([b3 b4] & I' & J). cbn [fst snd] in J. destruct (near tol b3 a3 && near tol b4 a4) eqn:Nr; [|contradiction]. destruct J as [->|[]]. apply andb_true_iff in Nr. destruct Nr as [N3 N4].
      destruct (Forall2_combine _ _ _ _ _ Ea I) as [Ip Ep]. split; [exact Ip|]. destruct (Forall2_in_r _ _ _ _ Eb I') as (l & Il & Epk). destruct l as [|h [|k [|m [|z l]]]]; try discriminate.
      exists h, k, m, a3, a4, b3, b4. split; [exact Il|]. split; [apply angles34_ok; exact Ep|]. split; [apply angles34_ok; exact Epk|]. split; apply near_ok; assumption.
    + intros (Ip & h & k & m & a3 & a4 & b3 & b4 & Il & A & B & C3 & C4). destruct (Forall2_in_l _ _ _ _ Ea Ip) as (a34 & I & Ep). apply angles34_ok in A. rewrite A in Ep. injection Ep as <-.
      exists (p, (a3, a4)). split; [exact I|]. apply in_flat_map. destruct (Forall2_in_l' _ _ _ _ Eb Il) as (b34 & I' & Eb'). apply angles34_ok in B. cbn [peak_of bind] in Eb'. rewrite B in Eb'. injection Eb' as <-.
      exists (b3, b4). split; [exact I'|]. cbn [fst snd]. apply near_ok in C3. apply near_ok in C4. rewrite C3, C4. left. reflexivity.
Qed.
Print Assumptions C78_warnings.

(** The warnings follow the scan, and a point is named once for every peak it is near to. *)
Theorem C78_order : forall i from to n peaks tol W a b, currat_axe_peaks i from to n peaks tol = Ok W ->
  end_point (sp_u i) (sp_v i) from a -> end_point (sp_u i) (sp_v i) to b ->
  exists pts (hits : hkle -> list nat), List.length pts = Z.to_nat n /\ (forall k p, nth_error pts k = Some p -> on_line a b n k p) /\
  W = flat_map (fun p => map (fun _ => p) (hits p)) pts /\
  forall p, In p pts -> NoDup (hits p) /\ forall j, In j (hits p) <-> exists h k m a3 a4 b3 b4, nth_error peaks j = Some [h; k; m] /\ angles_at i p a3 a4 /\ angles_at i (mkH (V h k m) 0) b3 b4 /\ close tol b3 a3 /\ close tol b4 a4.
Proof.
  intros i from to n peaks tol W a b H Ha Hb. revert H. unfold currat_axe_peaks. rewrite <- (end_unique _ _ _ _ _ Ha (corner_ok _ _ _)), <- (end_unique _ _ _ _ _ Hb (corner_ok _ _ _)). destruct (fractions n) as [ds|e] eqn:Ef; [|discriminate]. cbn [bind].
  destruct (map_res (angles34 i) (map (between a b) ds)) as [an|e] eqn:Ea; [|discriminate]. cbn [bind]. destruct (map_res (fun l => bind (peak_of l) (angles34 i)) peaks) as [br|e] eqn:Eb; [|discriminate]. cbn [bind]. intros E. apply Ok_inj in E. subst W.
  apply map_res_ok in Ea. apply map_res_ok in Eb. destruct (fractions_ok a b n ds Ef) as [Ln On]. set (pts := map (between a b) ds) in *.
  set (hit := fun p (x : option R * option R) => match angles34 i p with Ok (a3, a4) => near tol (fst x) a3 && near tol (snd x) a4 | Err _ => false end).
  set (hits := fun p => filter (fun j => hit p (nth j br (None, None))) (seq 0 (List.length br))). exists pts, hits. split; [unfold pts; rewrite map_length; exact Ln|]. split; [|split].
  - intros k p H. unfold pts in H. rewrite nth_error_map in H. destruct (nth_error ds k) as [d|] eqn:Ed; [|discriminate]. injection H as <-. apply On. exact Ed.
  - assert (G : forall p, flat_map (fun x => if hit p x then [p] else []) br = map (fun _ => p) (hits p)).
    { intros p. unfold hits. assert (G : forall l k, (forall j, nth j l (None, None) = nth (k + j) br (None, None)) -> flat_map (fun x => if hit p x then [p] else []) l = map (fun _ => p) (filter (fun j => hit p (nth j br (None, None))) (seq k (List.length l)))).
      { induction l as [|x l IH]; intros k Hk; [reflexivity|]. cbn [flat_map List.length seq filter]. rewrite (IH (S k)); [|intros j; specialize (Hk (S j)); simpl in Hk; rewrite Hk; f_equal; lia]. assert (H0 := Hk 0%nat). rewrite Nat.add_0_r in H0. simpl in H0. rewrite <- H0. destruct (hit p x); reflexivity. }
      apply G. reflexivity. }
    clear On Ln Ef. induction Ea as [|p [a3 a4] pts' an Ep Ea IH]; [reflexivity|]. cbn [combine flat_map]. rewrite IH. apply (f_equal2 (@app hkle)); [|reflexivity]. rewrite <- G. apply flat_map_ext. intros x. unfold hit. rewrite Ep. reflexivity.
  - intros p Ip. split; [apply NoDup_filter, seq_NoDup|]. intros j. unfold hits. rewrite filter_In, in_seq. destruct (Forall2_in_l' _ _ _ _ Ea Ip) as ([a3 a4] & _ & Ep). unfold hit. rewrite Ep.
    assert (Al : forall j x, nth_error peaks j = Some x -> exists y, nth_error br j = Some y /\ bind (peak_of x) (angles34 i) = Ok y). { clear - Eb. induction Eb as [|x y l r Exy Eb IH]; intros [|j] z E; try discriminate; [injection E as <-; exists y; auto|]. apply IH. exact E. }
    assert (Ll : List.length br = List.length peaks) by (symmetry; clear - Eb; induction Eb; simpl; auto). split.
    + intros [[_ Lj] Hh]. destruct (nth_error peaks j) as [x|] eqn:Ex; [|apply nth_error_None in Ex; simpl in Lj; lia]. destruct (Al _ _ Ex) as ([b3 b4] & Ey & Exy). rewrite (nth_error_nth _ _ (None, None) Ey) in Hh. cbn [fst snd] in Hh. apply andb_true_iff in Hh. destruct Hh as [N3 N4].
      destruct x as [|h [|k [|m [|z x]]]]; try discriminate. exists h, k, m, a3, a4, b3, b4. split; [reflexivity|]. split; [apply angles34_ok; exact Ep|]. split; [apply angles34_ok; exact Exy|]. split; apply near_ok; assumption.
    + intros (h & k & m & x3 & x4 & b3 & b4 & Ex & A & B & C3 & C4). apply angles34_ok in A. rewrite Ep in A. injection A as <- <-. destruct (Al _ _ Ex) as (y & Ey & Exy). apply angles34_ok in B. cbn [peak_of bind] in Exy. rewrite B in Exy. injection Exy as <-.
      split; [split; [lia|]; rewrite Ll; apply nth_error_Some; rewrite Ex; discriminate|]. rewrite (nth_error_nth _ _ (None, None) Ey). cbn [fst snd]. apply near_ok in C3. apply near_ok in C4. rewrite C3, C4. reflexivity.
Qed.
Print Assumptions C78_order.

(** ** When there is an answer *)
Lemma angles34_total i p : planes (sp_t i) -> exists a3 a4, angles34 i p = Ok (a3, a4).
Proof.
  intros [P1 P2]. unfold angles34, get_angles_and_Q, spacing. destruct (Req_EM_T (x_tau (t_mono (sp_t i))) 0); [contradiction|]. destruct (Req_EM_T (x_tau (t_ana (sp_t i))) 0); [contradiction|]. cbn [bind fst]. do 2 eexists. reflexivity.
Qed.
Lemma map_res_total {A B} (f : A -> res B) l : (forall x, In x l -> exists y, f x = Ok y) -> exists r, map_res f l = Ok r.
Proof. induction l as [|x l IH]; intros H; [exists []; reflexivity|]. destruct (H x (or_introl eq_refl)) as [y E]. destruct IH as [r Er]; [intros z I; apply H; right; exact I|]. exists (y :: r). simpl. rewrite E, Er. reflexivity. Qed.
Theorem C78_answers : forall i from to n peaks tol, planes (sp_t i) ->
  ((0 <= n)%Z -> (forall l, In l peaks -> List.length l = 3%nat) -> exists W, currat_axe_peaks i from to n peaks tol = Ok W) /\
  ((0 <= n)%Z -> (exists l, In l peaks /\ (List.length l < 3)%nat) -> (forall l, In l peaks -> (List.length l <= 3)%nat) -> currat_axe_peaks i from to n peaks tol = Err IndexError) /\
  ((0 <= n)%Z -> (exists l, In l peaks /\ (List.length l > 3)%nat) -> (forall l, In l peaks -> (3 <= List.length l)%nat) -> currat_axe_peaks i from to n peaks tol = Err ValueError) /\
  ((n < 0)%Z -> currat_axe_peaks i from to n peaks tol = Err ValueError).
Proof.
  intros i from to n peaks tol P. unfold currat_axe_peaks. set (a := corner _ _ from). set (b := corner _ _ to).
  assert (F : (0 <= n)%Z -> exists ds, fractions n = Ok ds). { intros L. unfold fractions. destruct (Z.ltb_spec n 0); [lia|]. destruct (Z.eqb n 1); eexists; reflexivity. }
  assert (Sc : forall ds, exists an, map_res (angles34 i) (map (between a b) ds) = Ok an). { intros ds. apply map_res_total. intros x _. destruct (angles34_total i x P) as (a3 & a4 & E). eexists. exact E. }
  assert (Er : forall (f : list R -> res (option R * option R)) (e : exn) l, (forall x, In x l -> (exists y, f x = Ok y) \/ f x = Err e) -> (exists x, In x l /\ f x = Err e) -> map_res f l = Err e).
  { intros f e. induction l as [|x l IH]; intros H (y & I & E); [contradiction|]. simpl. destruct (H x (or_introl eq_refl)) as [[z Ez]|Ex]; [|rewrite Ex; reflexivity]. rewrite Ez. destruct I as [->|I]; [congruence|].
    rewrite IH; [reflexivity|intros w Iw; apply H; right; exact Iw|exists y; auto]. }
  split; [|split; [|split]].
  - intros L H. destruct (F L) as [ds ->]. cbn [bind]. destruct (Sc ds) as [an ->]. cbn [bind]. destruct (map_res_total (fun l => bind (peak_of l) (angles34 i)) peaks) as [br Eb]; [|rewrite Eb; eexists; reflexivity].
    intros l I. specialize (H l I). destruct l as [|h [|k [|m [|z l]]]]; try discriminate. cbn [peak_of bind]. destruct (angles34_total i (mkH (V h k m) 0) P) as (a3 & a4 & E). eexists. exact E.
  - intros L (l & I & S) H. destruct (F L) as [ds ->]. cbn [bind]. destruct (Sc ds) as [an ->]. cbn [bind]. rewrite (Er _ IndexError); [reflexivity| |].
    + intros x Ix. specialize (H x Ix). destruct x as [|h [|k [|m [|z x]]]]; try (right; reflexivity); [|simpl in H; lia]. left. destruct (angles34_total i (mkH (V h k m) 0) P) as (a3 & a4 & E). eexists. exact E.
    + exists l. split; [exact I|]. destruct l as [|h [|k [|m l]]]; try reflexivity. simpl in S. lia.
  - intros L (l & I & S) H. destruct (F L) as [ds ->]. cbn [bind]. destruct (Sc ds) as [an ->]. cbn [bind]. rewrite (Er _ ValueError); [reflexivity| |].
    + intros x Ix. specialize (H x Ix). destruct x as [|h [|k [|m [|z x]]]]; simpl in H; try lia; [|right; reflexivity]. left. destruct (angles34_total i (mkH (V h k m) 0) P) as (a3 & a4 & E). eexists. exact E.
    + exists l. split; [exact I|]. destruct l as [|h [|k [|m [|z l]]]]; simpl in S; try lia. reflexivity.
  - intros L. unfold fractions. destruct (Z.ltb_spec n 0); [reflexivity|lia].
Qed.
Print Assumptions C78_answers.

(** ** A scan over a peak *)
Lemma line_unique a b n k p q : (Z.of_nat k < n)%Z -> on_line a b n k p -> on_line a b n k q -> p = q.
Proof.
  intros L (A & _ & B & C) (A' & _ & B' & C'). destruct k as [|k]; [rewrite (A eq_refl); symmetry; exact (A' eq_refl)|].
  assert (P : 0 < IZR (n - 1)) by (apply IZR_lt; lia). apply hkle_eq; [|nra]. assert (E := eq_trans C (eq_sym C')). destruct p as [[x y z] w], q as [[x' y' z'] w'], a as [[x0 y0 z0] w0]. unfold vscale, vadd in E. simpl in *. injection E as E1 E2 E3. f_equal; nra.
Qed.
(** A scan point at energy 0 on one of the peaks is warned about if the spectrometer can reach it; points out of reach never are. *)
Theorem C78_on_peak : forall i from to n peaks tol W a b j p, currat_axe_peaks i from to n peaks tol = Ok W ->
  end_point (sp_u i) (sp_v i) from a -> end_point (sp_u i) (sp_v i) to b -> (Z.of_nat j < n)%Z -> on_line a b n j p ->
  (forall a3 a4, angles_at i p a3 a4 -> a3 = None \/ a4 = None -> ~ In p W) /\
  (forall h k m a3 a4, In [h; k; m] peaks -> p = mkH (V h k m) 0 -> angles_at i p (Some a3) (Some a4) -> 0 <= tol -> In p W).
Proof.
  intros i from to n peaks tol W a b j p H Ea Eb Lj Ol. destruct (C78_warnings i from to n peaks tol W H) as (a' & b' & pts & Ea' & Eb' & Ln & Op & _ & _ & Iff). rewrite <- (end_unique _ _ _ _ _ Ea Ea'), <- (end_unique _ _ _ _ _ Eb Eb') in Op. clear a' b' Ea' Eb'. split.
  - intros a3 a4 An N I. apply Iff in I. destruct I as (_ & h & k & m & x3 & x4 & b3 & b4 & _ & An' & _ & (u & v & _ & E3 & _) & (u' & v' & _ & E4 & _)). destruct (angles_fun _ _ _ _ _ _ An An') as [-> ->]. destruct N; congruence.
  - intros h k m a3 a4 Ip Ep An Pt. apply Iff. split.
    + assert (Lt : (j < List.length pts)%nat) by lia. apply nth_error_Some in Lt. destruct (nth_error pts j) as [q|] eqn:Eq; [|contradiction]. rewrite (line_unique a b n j p q Lj Ol (Op _ _ Eq)). apply nth_error_In with j. exact Eq.
    + exists h, k, m, (Some a3), (Some a4), (Some a3), (Some a4). split; [exact Ip|]. split; [exact An|]. rewrite <- Ep. split; [exact An|]. split; [exists a3, a3|exists a4, a4]; (split; [reflexivity|]; split; [reflexivity|]); unfold Rminus; rewrite Rplus_opp_r, Rabs_R0; exact Pt.
Qed.
Print Assumptions C78_on_peak.

(** ** Energies between whole numbers *)
(** With everything in whole numbers except the energy, a scan at 3/2 meV is made at 1 meV. *)
Theorem C78_energy_refuted : exists u v qx qy e, u = AI 1 0 0 /\ v = AI 0 1 0 /\ forall a, end_point u v (qx, qy, e) a -> val e = 3 / 2 /\ h_w a = 1 /\ h_q a = V 1 0 0.
Proof.
  exists (AI 1 0 0), (AI 0 1 0), (NInt 1), (NInt 0), (NFloat (3 / 2)). split; [reflexivity|]. split; [reflexivity|]. intros a (E & A & _). split; [reflexivity|]. split.
  - assert (W : whole (AI 1 0 0) (AI 0 1 0) (NInt 1) (NInt 0)) by (repeat split; repeat eexists). apply (cut_unique (3 / 2)); [exact (A W)|]. split; [exists 1%Z; reflexivity|]. split; [rewrite Rabs_right; lra|]. split; [rewrite !Rabs_right; lra|lra].
  - rewrite E. unfold vadd, vscale. simpl. apply v3_eq; simpl; ring.
Qed.
Print Assumptions C78_energy_refuted.

(** ** The same direction, one turn apart *)
(** Angles are compared as numbers: next to the peak (-1 0 0) on the side of negative k the computed sample angle is a turn away, and no
    warning is given however near the point and for tolerances up to 90 degrees. *)
Theorem C78_turn_refuted : forall c t a d ki kf tol, 0 < a -> 0 < d -> d <= 1 / 10 -> numbers c t 0 ki kf -> 0 < ki -> 0 < kf -> planes t -> side (s_dir t) -> tol < 90 ->
  let i := mkSp c t (mkL a a a 90 90 90) (V 1 0 0) (V 0 1 0) (AI 1 0 0) (AI 0 1 0) in
  forall W, currat_axe_peaks i (NFloat (-1), NFloat (- d), NFloat 0) (NFloat (-1), NFloat 0, NFloat 0) 2 [[-1; 0; 0]] tol = Ok W ->
  ~ In (mkH (V (-1) (- d) 0) 0) W.
Proof.
  intros c t a d ki kf tol Pa Pd Ld Nb Pi Pf Pl Sd Lt i W H I. destruct (C78_warnings _ _ _ _ _ _ _ H) as (pa0 & pb0 & pts0 & _ & _ & _ & _ & _ & _ & Iff). apply Iff in I. clear Iff. destruct I as (_ & h & k & m & a3 & a4 & b3 & b4 & Ip & A & B & C3 & _).
  destruct Ip as [E|[]]. injection E as <- <- <-. assert (C : cell (sp_l i)) by (unfold cell, i; simpl; rewrite rad90, cos_PI2; repeat split; lra).
  assert (Q1 := q_axes (sp_l i) 1 0 1 (V (-1) (- d) 0) C ltac:(lra) ltac:(lra)). assert (Q2 := q_axes (sp_l i) 1 0 1 (V (-1) 0 0) C ltac:(lra) ltac:(lra)). cbn [vx vy vz] in Q1, Q2.
  assert (S1 : sg 1 = 1) by (unfold sg; destruct (Rlt_dec 0 1); [reflexivity|lra]). rewrite S1 in Q1, Q2.
  destruct (C21_reciprocal_parameters (sp_l i) C) as (Pas & _). assert (PP := PI_RGT_0).
  assert (Pb : 0 < 2 * PI / (lb (sp_l i) * sin (rad (alpha (sp_l i))))). { apply Rdiv_lt_0_compat; [lra|]. apply Rmult_lt_0_compat; [exact Pa|]. simpl alpha. rewrite rad90, sin_PI2. lra. }
  set (x := astar (sp_l i)) in *. set (y := 2 * PI / (lb (sp_l i) * _)) in *. assert (O1 := outcome_ok c t _ _ _ _ 0 ki kf _ Nb Pl Q1). assert (O2 := outcome_ok c t _ _ _ _ 0 ki kf _ Nb Pl Q2).
  set (v1 := V (1 * (x * -1)) _ _) in O1. set (v2 := V (1 * (x * -1)) _ _) in O2.
  destruct (angles_fun i (mkH (V (-1) (- d) 0) 0) _ _ _ _ A (ex_intro _ _ O1)) as [Ea _]. destruct (angles_fun i (mkH (V (-1) 0 0) 0) _ _ _ _ B (ex_intro _ _ O2)) as [Eb _].
  destruct C3 as (r & s & Er & Es & Lr). rewrite Er in Eb. rewrite Es in Ea. clear A B O1 O2 Q1 Q2.
  unfold a3_of in Ea, Eb. destruct (odiv _ _) as [u1|] in Ea; [|discriminate]. destruct (odiv _ _) as [u2|] in Eb; [|discriminate]. cbn [obind] in Ea, Eb. unfold oacos in Ea, Eb. destruct (Rle_dec (Rabs u1) 1) in Ea; [|discriminate]. destruct (Rle_dec (Rabs u2) 1) in Eb; [|discriminate]. cbn [obind odeg option_map] in Ea, Eb. injection Ea as Ea. injection Eb as Eb.
  assert (T1 : MatModel.atan2 (vy v1) (vx v1) <= - (PI / 2)).
  { unfold MatModel.atan2, v1. cbn [vx vy]. destruct (Rlt_dec 0 (1 * (x * -1))); [nra|]. destruct (Rlt_dec (1 * (x * -1)) 0); [|nra]. destruct (Rle_dec 0 (1 * (y * - d))); [nra|]. destruct (atan_bound (1 * (y * - d) / (1 * (x * -1)))). lra. }
  assert (T2 : MatModel.atan2 (vy v2) (vx v2) = PI).
  { unfold MatModel.atan2, v2. cbn [vx vy]. destruct (Rlt_dec 0 (1 * (x * -1))); [nra|]. destruct (Rlt_dec (1 * (x * -1)) 0); [|nra]. destruct (Rle_dec 0 (1 * (y * 0))); [|lra]. replace (1 * (y * 0) / (1 * (x * -1))) with 0 by (field; lra). rewrite atan_0. ring. }
  set (p1 := MatModel.atan2 _ _) in Ea, T1. set (p2 := MatModel.atan2 _ _) in Eb, T2. clearbody p1 p2. assert (A1 := acos_bound u1). assert (A2 := acos_bound u2).
  unfold deg in *. assert (K : Rabs (r - s) >= (PI / 2) * 180 / PI).
  { cbn [sp_t i] in *. unfold i in Ea, Eb. cbn [sp_t] in *. assert (F : r - s = s_dir t * ((p1 - p2) + (acos u1 - acos u2)) * 180 / PI) by (rewrite Eb, Ea; field; lra).
    assert (Ab : Rabs (r - s) = Rabs ((p1 - p2) + (acos u1 - acos u2)) * 180 / PI). { rewrite F. unfold Rdiv. rewrite !Rabs_mult. rewrite (Rabs_right 180) by lra. rewrite (Rabs_right (/ PI)) by (left; apply Rinv_0_lt_compat; lra). destruct Sd as [-> | ->]; [rewrite (Rabs_right 1) by lra|rewrite (Rabs_left (-1)) by lra]; ring. }
    rewrite Ab. rewrite Rabs_left1 by lra. unfold Rdiv. apply Rle_ge. apply Rmult_le_compat_r; [left; apply Rinv_0_lt_compat; lra|]. lra. }
  replace (PI / 2 * 180 / PI) with 90 in K by (field; lra). lra.
Qed.
Print Assumptions C78_turn_refuted.

(** A spectrometer and a scan that meet the hypotheses: three points at energy 0 across the peak (1 0 0), which is warned about. *)
Example C78_case : exists i k W, planes (sp_t i) /\ side (s_dir (sp_t i)) /\ 0 < k /\ numbers (sp_c i) (sp_t i) 0 k k /\
  currat_axe_peaks i (NFloat (9 / 10), NInt 0, NInt 0) (NFloat (11 / 10), NInt 0, NInt 0) 3 [[1; 0; 0]] 1 = Ok W /\ In (mkH (V 1 0 0) 0) W.
Proof.
  destruct C77_case as (k & Pk & Nb & Pl & Sd & _). set (t := case 1 None None None None) in *. destruct (C77_case_triangle k Pk) as (C & Eq & Tr). set (l := mkL _ _ _ _ _ _) in *.
  exists (mkSp ex_c t l (V 1 0 0) (V 0 1 0) (AI 1 0 0) (AI 0 1 0)), k. set (i := mkSp _ _ _ _ _ _ _). destruct (C78_answers i (NFloat (9 / 10), NInt 0, NInt 0) (NFloat (11 / 10), NInt 0, NInt 0) 3 [[1; 0; 0]] 1 Pl) as (An & _). destruct An as [W EW]; [lia|intros x [<-|[]]; reflexivity|].
  exists W. split; [exact Pl|]. split; [exact Sd|]. split; [exact Pk|]. split; [exact Nb|]. split; [exact EW|].
  set (a := corner (sp_u i) (sp_v i) (NFloat (9 / 10), NInt 0, NInt 0)). set (b := corner (sp_u i) (sp_v i) (NFloat (11 / 10), NInt 0, NInt 0)).
  destruct (C78_on_peak i _ _ _ _ _ _ a b 1 (mkH (V 1 0 0) 0) EW (corner_ok _ _ _) (corner_ok _ _ _) ltac:(lia)) as [_ H].
  - unfold a, b, i. simpl. split; [lia|]. split; [lia|]. split; [simpl; ring|]. unfold vadd, vscale. simpl. apply v3_eq; simpl; field.
  - destruct (C77_axes ex_c t l 1 0 1 1 0 0 0 k k C ltac:(lra) ltac:(lra) ltac:(lra) Nb Pk Pk Pl Sd) as (x & y & z & a3 & a4 & O & Ex & Ey & Ez & Sa & _).
    assert (EQ : sqrt (x ^ 2 + y ^ 2 + z ^ 2) = k).
    { destruct (C77_right_angles ex_c t l 1 0 1 1 0 0 0 k k C eq_refl eq_refl eq_refl ltac:(lra) ltac:(lra) ltac:(lra) Nb Pl) as (u3 & u4 & v1 & v2 & v5 & v6 & O'). destruct O as (w1 & w2 & w5 & w6 & O). rewrite O in O'. apply (f_equal (fun r => match r with Ok (_, Some q) => q | _ => 0 end)) in O'. cbv beta iota in O'. rewrite O'. exact Eq. }
    destruct Sa as (u & v & E3 & E4 & _); [rewrite EQ; exact Tr|]. subst a3 a4. apply (H 1 0 0 u v); [left; reflexivity|reflexivity|exists (Some (sqrt (x ^ 2 + y ^ 2 + z ^ 2))); exact O|lra].
Qed.

(** * Aluminium rings *)
(** The squared length of the reflection's indices. *)
Definition norm2 (p : Z * Z * Z) : Z := let '(h, k, l) := p in (h * h + k * k + l * l)%Z.
(** All reflections at all fractions of the wavelength, from small to large angles. *)
Definition ring_order : list ((Z * Z * Z) * nat) :=
  [((1, 1, 1), 3%nat); ((2, 0, 0), 3%nat); ((1, 1, 1), 2%nat); ((2, 2, 0), 3%nat); ((2, 0, 0), 2%nat); ((3, 1, 1), 3%nat);
   ((2, 2, 0), 2%nat); ((3, 1, 1), 2%nat); ((1, 1, 1), 1%nat); ((2, 0, 0), 1%nat); ((2, 2, 0), 1%nat); ((3, 1, 1), 1%nat)]%Z.
Definition al_a : R := 40495 / 10000.
(** The number before wavelength over 2 a: |hkl| over the divisor. *)
Definition strength (r : (Z * Z * Z) * nat) : R := sqrt (IZR (norm2 (fst r))) / INR (snd r).

Lemma al_cell_ok : cell al_cell.
Proof. unfold cell, al_cell; simpl. rewrite rad90, cos_PI2. repeat split; lra. Qed.
Lemma al_spacing p : In p al_reflections -> get_d_spacing al_cell (hkl_of p) = al_a / sqrt (IZR (norm2 p)) /\ 0 < sqrt (IZR (norm2 p)).
Proof.
  intros I. assert (Pn : (0 < norm2 p)%Z) by (simpl in I; intuition (subst; simpl; lia)). assert (Ps : 0 < sqrt (IZR (norm2 p))) by (apply sqrt_lt_R0, IZR_lt; exact Pn). split; [|exact Ps].
  destruct p as [[h k] l]. assert (Nz : IZR h <> 0 \/ IZR k <> 0 \/ IZR l <> 0). { destruct (Z.eq_dec h 0) as [->|]; [|left; apply not_0_IZR; assumption]. destruct (Z.eq_dec k 0) as [->|]; [|right; left; apply not_0_IZR; assumption]. right; right. apply not_0_IZR. intros ->. simpl in Pn. lia. }
  assert (Q := q_right al_cell (IZR h) (IZR k) (IZR l) al_cell_ok eq_refl eq_refl eq_refl Nz). unfold get_q in Q. assert (PP := PI_RGT_0). cbn [hkl_of]. change (la al_cell) with al_a in Q. change (lb al_cell) with al_a in Q. change (lc al_cell) with al_a in Q. assert (Pa : 0 < al_a) by (unfold al_a; lra).
  replace ((2 * PI * IZR h / al_a) ^ 2 + (2 * PI * IZR k / al_a) ^ 2 + (2 * PI * IZR l / al_a) ^ 2) with ((2 * PI / al_a) ^ 2 * IZR (norm2 (h, k, l))) in Q by (unfold norm2; rewrite !plus_IZR, !mult_IZR; field; lra).
  assert (Pq : 0 < 2 * PI / al_a) by (apply Rdiv_lt_0_compat; lra). rewrite sqrt_mult in Q by (try apply pow2_ge_0; apply IZR_le; lia). rewrite sqrt_pow2 in Q by lra.
  assert (Nd : get_d_spacing al_cell (V (IZR h) (IZR k) (IZR l)) <> 0). { intros Z. rewrite Z in Q. unfold Rdiv at 1 in Q. rewrite Rinv_0, Rmult_0_r in Q. assert (0 < 2 * PI / al_a * sqrt (IZR (norm2 (h, k, l)))) by (apply Rmult_lt_0_compat; assumption). lra. }
  set (d := get_d_spacing _ _) in *. apply (Rmult_eq_reg_l (2 * PI / d)); [|apply Rmult_integral_contrapositive_currified; [lra|apply Rinv_neq_0_compat; exact Nd]]. replace (2 * PI / d * d) with (2 * PI) by (field; exact Nd). rewrite Q. field. split; lra.
Qed.
Definition line_of (w : R) (r : (Z * Z * Z) * nat) : ring := (fst r, get_two_theta al_cell (hkl_of (fst r)) (w / INR (snd r)), snd r).
Definition listed : list ((Z * Z * Z) * nat) := flat_map (fun n => map (fun p => (p, n)) al_reflections) [3%nat; 2%nat; 1%nat].
Lemma rings_listed w : rings w = map (line_of w) listed.
Proof. reflexivity. Qed.
Lemma two_theta_line w r : In r listed -> get_two_theta al_cell (hkl_of (fst r)) (w / INR (snd r)) = let s := w / (2 * al_a) * strength r in if Rle_dec s 1 then if Rle_dec (-1) s then Some (2 * deg (asin s)) else None else None.
Proof.
  intros I. assert (Ir : In (fst r) al_reflections /\ (1 <= snd r)%nat). { destruct r as [p n]. unfold listed in I. apply in_flat_map in I. destruct I as (n' & In' & Ip). apply in_map_iff in Ip. destruct Ip as (p' & E & Ip). injection E as <- <-. split; [exact Ip|]. simpl in In'. simpl. lia. }
  destruct Ir as [Ir Ln]. destruct (al_spacing _ Ir) as [Ed Ps]. unfold get_two_theta. rewrite Ed. assert (Pn : 0 < INR (snd r)) by (apply lt_0_INR; lia).
  replace (w / INR (snd r) / 2 / (al_a / sqrt (IZR (norm2 (fst r))))) with (w / (2 * al_a) * strength r); [reflexivity|]. unfold strength, al_a. field. split; lra.
Qed.
(** Where a line stands in the order. *)
Fixpoint place (r : (Z * Z * Z) * nat) (l : list ((Z * Z * Z) * nat)) : nat :=
  match l with
  | [] => 0
  | x :: l => if Z.eqb (norm2 (fst r)) (norm2 (fst x)) && Nat.eqb (snd r) (snd x) then 0 else S (place r l)
  end.
Definition cmp (k : nat) (x y : (Z * Z * Z) * nat) : bool :=
  let i := place x ring_order in let j := place y ring_order in
  if Nat.ltb i k then if Nat.ltb j k then Nat.ltb i j else true else false.
Fixpoint put (k : nat) (x : (Z * Z * Z) * nat) (l : list ((Z * Z * Z) * nat)) : list ((Z * Z * Z) * nat) :=
  match l with [] => [x] | y :: l' => if cmp k x y then x :: l else y :: put k x l' end.
Definition ordered (k : nat) : list ((Z * Z * Z) * nat) := fold_left (fun acc r => put k r acc) listed [].
Lemma put_in k x l y : In y (put k x l) <-> y = x \/ In y l.
Proof. induction l as [|z l IH]; simpl; [intuition auto|]. destruct (cmp k x z); simpl; [intuition auto|]. rewrite IH. intuition auto. Qed.
Lemma sorted_lines w k : (forall x y, In x listed -> In y listed -> before (snd (fst (line_of w x))) (snd (fst (line_of w y))) = cmp k x y) -> sorted_rings (rings w) = map (line_of w) (ordered k).
Proof.
  intros H. rewrite rings_listed. unfold sorted_rings, ordered.
  assert (G : forall l acc, (forall x, In x l -> In x listed) -> (forall x, In x acc -> In x listed) -> fold_left (fun acc r => insert r acc) (map (line_of w) l) (map (line_of w) acc) = map (line_of w) (fold_left (fun acc r => put k r acc) l acc)).
  { induction l as [|x l IH]; intros acc Il Ia; [reflexivity|]. cbn [map fold_left]. rewrite <- IH; [|intros y I; apply Il; right; exact I|intros y I; apply put_in in I; destruct I as [->|I]; [apply Il; left; reflexivity|apply Ia; exact I]].
    f_equal. clear IH. induction acc as [|y acc IH]; [reflexivity|]. cbn [map insert put]. rewrite H by (auto with datatypes). destruct (cmp k x y); [reflexivity|]. cbn [map]. f_equal. apply IH. intros z I. apply Ia. right. exact I. }
  apply (G listed []); auto. intros x [].
Qed.
(** The strengths increase along the order. *)
Lemma strength_lt x y : (0 < norm2 (fst x))%Z -> (0 < snd x)%nat -> (0 < snd y)%nat -> (norm2 (fst x) * Z.of_nat (snd y) ^ 2 < norm2 (fst y) * Z.of_nat (snd x) ^ 2)%Z -> 0 < strength x < strength y.
Proof.
  intros Px Nx Ny H. assert (Ix : 0 < INR (snd x)) by (apply lt_0_INR; exact Nx). assert (Iy : 0 < INR (snd y)) by (apply lt_0_INR; exact Ny). apply IZR_lt in H. rewrite !mult_IZR, !Z.pow_2_r, !mult_IZR, <- !INR_IZR_INZ in H.
  assert (Pz : 0 < IZR (norm2 (fst x))) by (apply IZR_lt; exact Px). unfold strength. split; [apply Rdiv_lt_0_compat; [apply sqrt_lt_R0; exact Pz|exact Ix]|].
  apply (Rmult_lt_reg_r (INR (snd x) * INR (snd y))); [apply Rmult_lt_0_compat; assumption|]. replace (sqrt (IZR (norm2 (fst x))) / INR (snd x) * (INR (snd x) * INR (snd y))) with (sqrt (IZR (norm2 (fst x))) * INR (snd y)) by (field; lra).
  replace (sqrt (IZR (norm2 (fst y))) / INR (snd y) * (INR (snd x) * INR (snd y))) with (sqrt (IZR (norm2 (fst y))) * INR (snd x)) by (field; lra).
  assert (Pn : 0 <= IZR (norm2 (fst y))). { apply Rnot_lt_le. intros L. assert (IZR (norm2 (fst y)) * (INR (snd x) * INR (snd x)) <= 0); [|assert (0 < IZR (norm2 (fst x)) * (INR (snd y) * INR (snd y))) by (apply Rmult_lt_0_compat; [exact Pz|apply Rmult_lt_0_compat; assumption]); lra]. assert (0 < INR (snd x) * INR (snd x)) by (apply Rmult_lt_0_compat; assumption). nra. }
  rewrite <- (sqrt_square (INR (snd y))) by lra. rewrite <- (sqrt_square (INR (snd x))) by lra. rewrite <- !sqrt_mult by (try apply Rle_0_sqr; lra || (apply Rmult_le_pos; lra)). apply sqrt_lt_1; [apply Rmult_le_pos; [lra|apply Rmult_le_pos; lra]|apply Rmult_le_pos; [lra|apply Rmult_le_pos; lra]|exact H].
Qed.
Lemma listed_order x y : In x listed -> In y listed -> (place x ring_order < place y ring_order)%nat -> 0 < strength x < strength y.
Proof.
  assert (H : forallb (fun x => forallb (fun y => negb (Nat.ltb (place x ring_order) (place y ring_order)) ||
    (Z.ltb 0 (norm2 (fst x)) && Nat.ltb 0 (snd x) && Nat.ltb 0 (snd y) && Z.ltb (norm2 (fst x) * Z.of_nat (snd y) ^ 2) (norm2 (fst y) * Z.of_nat (snd x) ^ 2))) listed) listed = true) by (vm_compute; reflexivity).
  intros Ix Iy L. rewrite forallb_forall in H. specialize (H x Ix). rewrite forallb_forall in H. specialize (H y Iy). apply Nat.ltb_lt in L. rewrite L in H. simpl negb in H. rewrite orb_false_l, !andb_true_iff in H. destruct H as [[[A B] C] D]. apply Z.ltb_lt in A, D. apply Nat.ltb_lt in B, C. apply strength_lt; assumption.
Qed.
Lemma place_ok x : In x listed -> (place x ring_order < 12)%nat /\ nth_error ring_order (place x ring_order) = Some x.
Proof. intros I. unfold listed in I. simpl in I. repeat destruct I as [<-|I]; try contradiction; split; (vm_compute; reflexivity) || (cbv; lia). Qed.
Lemma place_of j x : nth_error ring_order j = Some x -> In x listed /\ place x ring_order = j.
Proof. do 12 (destruct j as [|j]; [intros E; injection E as <-; split; [simpl; tauto|reflexivity]|]). destruct j; discriminate. Qed.
Lemma threshold (P : nat -> Prop) n : (forall j, (j < n)%nat -> P j \/ ~ P j) -> (forall i j, (i < j < n)%nat -> P j -> P i) -> exists k, (k <= n)%nat /\ forall j, (j < n)%nat -> (P j <-> (j < k)%nat).
Proof.
  induction n as [|n IH]; intros D M; [exists 0%nat; split; [lia|intros; lia]|]. destruct (D n ltac:(lia)) as [Y|N].
  - exists (S n). split; [lia|]. intros j L. split; [lia|]. intros _. destruct (Nat.eq_dec j n) as [->|]; [exact Y|]. apply (M j n); [lia|exact Y].
  - destruct IH as (k & Lk & H); [intros; apply D; lia|intros i j L; apply M; lia|]. exists k. split; [lia|]. intros j L. destruct (Nat.eq_dec j n) as [->|Nj]; [split; [intros; contradiction|lia]|]. apply H. lia.
Qed.
Lemma ordered_ok k : (k <= 12)%nat -> firstn k (ordered k) = firstn k ring_order /\ Permutation (ordered k) ring_order.
Proof.
  assert (PI : Permutation listed ring_order).
  { apply NoDup_Permutation.
    - unfold listed. simpl. repeat constructor; simpl; intuition discriminate.
    - unfold ring_order. repeat constructor; simpl; intuition discriminate.
    - intros x. split; [intros I; apply place_ok in I; eapply nth_error_In; apply I|]. intros I. apply In_nth_error in I. destruct I as [j E]. apply (place_of j). exact E. }
  assert (PP : forall x l, Permutation (put k x l) (x :: l)). { intros x l. induction l as [|y l IH]; simpl; [reflexivity|]. destruct (cmp k x y); [reflexivity|]. rewrite IH. apply perm_swap. }
  assert (PO : Permutation (ordered k) listed). { unfold ordered. rewrite <- (app_nil_r listed) at 2. generalize listed ([] : list ((Z * Z * Z) * nat)). induction l as [|x l IH]; intros acc; simpl; [reflexivity|]. rewrite IH, (PP x acc). symmetry. apply Permutation_middle. }
  intros L. split; [|rewrite PO; exact PI]. clear PI PP PO. do 13 (destruct k as [|k]; [vm_compute; reflexivity|]). lia.
Qed.
(** What is printed: reflections and wavelengths in the same order at every energy, with the angle of Bragg's law, as far as they can be
    reached; the rest after them without an angle. *)
Theorem C79_rings : forall c energy, physical c -> 0 < energy ->
  exists w rows k, 0 < w /\ wavelen (values_of c energy) = Fin w /\ aluminum c energy = Some rows /\ (k <= 12)%nat /\
  List.length rows = 12%nat /\
  (forall j p n, (j < k)%nat -> nth_error ring_order j = Some (p, n) -> exists t, nth_error rows j = Some (p, Some t, n) /\ 0 < t <= 180 /\ w / INR n = 2 * (al_a / sqrt (IZR (norm2 p))) * sin (rad t / 2)) /\
  (forall i j p q n m s t, (i < j < k)%nat -> nth_error rows i = Some (p, Some s, n) -> nth_error rows j = Some (q, Some t, m) -> s < t) /\
  (forall j p t n, (k <= j)%nat -> nth_error rows j = Some (p, t, n) -> t = None /\ In (p, n) ring_order /\ 2 * (al_a / sqrt (IZR (norm2 p))) < w / INR n) /\
  forall p n, In (p, n) ring_order -> exists t, In (p, t, n) rows.
Proof.
  intros c energy Ph Pe. destruct (get_back c energy QWavelength Ph Pe) as (w & Ew & Pw & _). cbn [get] in Ew. exists w. assert (Pa : 0 < al_a) by (unfold al_a; lra). assert (Pk : 0 < w / (2 * al_a)) by (apply Rdiv_lt_0_compat; lra).
  set (c0 := w / (2 * al_a)) in *. set (st := fun j => match nth_error ring_order j with Some r => strength r | None => 0 end).
  destruct (threshold (fun j => c0 * st j <= 1) 12) as (k & Lk & Hk).
  { intros j _. destruct (Rle_dec (c0 * st j) 1); auto. }
  { intros i j [Lij Lj] H. eapply Rle_trans; [|exact H]. apply Rmult_le_compat_l; [lra|]. unfold st. destruct (nth_error ring_order i) as [x|] eqn:Ei; [|apply nth_error_None in Ei; simpl in Ei; lia]. destruct (nth_error ring_order j) as [y|] eqn:Ej; [|apply nth_error_None in Ej; simpl in Ej; lia].
    destruct (place_of _ _ Ei) as [Ix Px]. destruct (place_of _ _ Ej) as [Iy Py]. assert (L := listed_order x y Ix Iy ltac:(lia)). lra. }
  assert (Stp : forall x, In x listed -> st (place x ring_order) = strength x). { intros x I. unfold st. destruct (place_ok x I) as [_ ->]. reflexivity. }
  assert (Spos : forall x, In x listed -> 0 < strength x). { intros x I. destruct (Nat.eq_dec (place x ring_order) 11) as [E|N].
    - assert (L := listed_order ((1, 1, 1)%Z, 3%nat) x ltac:(simpl; tauto) I). rewrite E in L. change (place _ _) with 0%nat in L. specialize (L ltac:(lia)). lra.
    - destruct (place_ok x I) as [Lx _]. assert (L := listed_order x ((3, 1, 1)%Z, 1%nat) I ltac:(simpl; tauto)). change (place (_, 1%nat) ring_order) with 11%nat in L. specialize (L ltac:(lia)). lra. }
  assert (Val : forall x, In x listed -> snd (fst (line_of w x)) = if Nat.ltb (place x ring_order) k then Some (2 * deg (asin (c0 * strength x))) else None).
  { intros x I. unfold line_of. cbn [fst snd]. rewrite two_theta_line by exact I. fold c0. cbv zeta. destruct (place_ok x I) as [Lx _]. specialize (Hk _ Lx). cbv beta in Hk. rewrite (Stp x I) in Hk. assert (Sx := Spos x I).
    destruct (Nat.ltb_spec (place x ring_order) k) as [L|L]; destruct (Rle_dec (c0 * strength x) 1) as [Y|N]; try reflexivity; try (exfalso; tauto || lia).
    - destruct (Rle_dec (-1) _) as [_|N]; [reflexivity|]. exfalso. apply N. assert (0 < c0 * strength x) by (apply Rmult_lt_0_compat; assumption). lra.
    - exfalso. apply Hk in Y. lia. }
  assert (As : forall x y, 0 < x -> x < y -> y <= 1 -> 2 * deg (asin x) < 2 * deg (asin y)).
  { intros x y P0 Lxy P1. unfold deg. assert (PP := PI_RGT_0). assert (asin x < asin y). { apply Rnot_le_lt. intros L. assert (B1 := asin_bound x). assert (B2 := asin_bound y). assert (S := sin_incr_1 (asin y) (asin x) ltac:(lra) ltac:(lra) ltac:(lra) ltac:(lra) L). rewrite !sin_asin in S by lra. lra. } apply Rmult_lt_compat_l; [lra|]. unfold Rdiv. apply Rmult_lt_compat_r; [apply Rinv_0_lt_compat; lra|]. lra. }
  assert (Lt : forall x y, In x listed -> In y listed -> (place x ring_order < place y ring_order < k)%nat -> 2 * deg (asin (c0 * strength x)) < 2 * deg (asin (c0 * strength y))).
  { intros x y Ix Iy L. destruct (listed_order x y Ix Iy ltac:(lia)) as [P1 P2]. apply As; [apply Rmult_lt_0_compat; assumption|apply Rmult_lt_compat_l; assumption|]. rewrite <- (Stp y Iy). apply Hk; lia. }
  assert (Srt : sorted_rings (rings w) = map (line_of w) (ordered k)).
  { apply sorted_lines. intros x y Ix Iy. rewrite !Val by assumption. unfold cmp, before. destruct (Nat.ltb_spec (place x ring_order) k) as [Lx|Lx]; [|reflexivity]. destruct (Nat.ltb_spec (place y ring_order) k) as [Ly|Ly]; [|reflexivity].
    destruct (Nat.ltb_spec (place x ring_order) (place y ring_order)) as [L|L]; destruct Rlt_dec as [R1|R1]; try reflexivity; exfalso.
    - apply R1. apply Lt; auto.
    - destruct (Nat.eq_dec (place x ring_order) (place y ring_order)) as [E|N]; [|assert (L2 := Lt y x Iy Ix ltac:(lia)); lra].
      destruct (place_ok x Ix) as [_ E1]. destruct (place_ok y Iy) as [_ E2]. rewrite E in E1. rewrite E1 in E2. injection E2 as ->. lra. }
  destruct (ordered_ok k Lk) as [Ef Pm]. exists (map (line_of w) (ordered k)), k. split; [exact Pw|]. split; [exact Ew|]. split; [unfold aluminum; rewrite Ew; cbn [ofl obind]; rewrite Srt; reflexivity|]. split; [exact Lk|].
  assert (Ll : List.length (ordered k) = 12%nat) by (rewrite (Permutation_length Pm); reflexivity). split; [rewrite map_length; exact Ll|].
  assert (Nth : forall j x, (j < k)%nat -> nth_error ring_order j = Some x -> nth_error (map (line_of w) (ordered k)) j = Some (line_of w x)).
  { intros j x Lj E. rewrite nth_error_map. replace (nth_error (ordered k) j) with (nth_error ring_order j); [rewrite E; reflexivity|].
    transitivity (nth_error (firstn k ring_order) j); [|rewrite <- Ef]; [symmetry|]; rewrite <- (firstn_skipn k) at 1 || idtac.
    - clear - Lj. revert k Lj. generalize ring_order. intros l. revert j. induction l as [|a l IH]; intros j k Lj; destruct k; try lia; simpl; [reflexivity|]. destruct j; [reflexivity|]. simpl. apply IH. lia.
    - clear - Lj. generalize (ordered k). intros l. revert k j Lj. induction l as [|a l IH]; intros k j Lj; destruct k; try lia; simpl; [reflexivity|]. destruct j; [reflexivity|]. simpl. apply IH. lia. }
  assert (Inl : forall x, In x (ordered k) -> In x listed). { intros x I. apply (Permutation_in _ Pm) in I. apply In_nth_error in I. destruct I as [j E]. apply (place_of j). exact E. }
  assert (Br : forall x, In x listed -> match snd (fst (line_of w x)) with Some t => 0 < t <= 180 /\ w / INR (snd x) = 2 * (al_a / sqrt (IZR (norm2 (fst x)))) * sin (rad t / 2) | None => 2 * (al_a / sqrt (IZR (norm2 (fst x)))) < w / INR (snd x) end).
  { intros x I. assert (Ix : In (fst x) al_reflections /\ (1 <= snd x)%nat). { destruct x as [p n]. unfold listed in I. apply in_flat_map in I. destruct I as (n' & In' & Ip). apply in_map_iff in Ip. destruct Ip as (p' & E & Ip). injection E as <- <-. split; [exact Ip|]. simpl in In'. simpl. lia. }
    destruct Ix as [Ip Ln]. destruct (al_spacing _ Ip) as [Ed Ps]. assert (Nzv : nz (hkl_of (fst x))). { clear - Ip. unfold nz. simpl in Ip. destruct Ip as [<-|[<-|[<-|[<-|[]]]]]; intros Z; apply (f_equal vx) in Z; simpl in Z; lra. }
    assert (B := C22_bragg al_cell (hkl_of (fst x)) (w / INR (snd x)) al_cell_ok Nzv ltac:(apply Rdiv_lt_0_compat; [exact Pw|apply lt_0_INR; lia])). rewrite Ed in B. unfold line_of. cbn [fst snd]. destruct (get_two_theta _ _ _) as [t|]; [|exact B]. tauto. }
  split; [|split; [|split]].
  - intros j p n Lj E. destruct (place_of _ _ E) as [Il Ep]. rewrite (Nth _ _ Lj E). assert (V1 := Val _ Il). assert (B := Br _ Il). rewrite V1 in B. rewrite Ep in B, V1. destruct (Nat.ltb_spec j k) as [_|N]; [|lia]. eexists. split; [unfold line_of in *; cbn [fst snd] in *; rewrite V1; reflexivity|]. exact B.
  - intros i j p q n m s t [Lij Lj] Ei Ej. destruct (nth_error ring_order i) as [x|] eqn:Ex; [|apply nth_error_None in Ex; simpl in Ex; lia]. destruct (nth_error ring_order j) as [y|] eqn:Ey; [|apply nth_error_None in Ey; simpl in Ey; lia].
    rewrite (Nth i x (Nat.lt_trans _ _ _ Lij Lj) Ex) in Ei. rewrite (Nth j y Lj Ey) in Ej. destruct (place_of _ _ Ex) as [Ix Px]. destruct (place_of _ _ Ey) as [Iy Py]. assert (V1 := Val _ Ix). assert (V2 := Val _ Iy). apply (f_equal (fun o : option ring => match o with Some l => snd (fst l) | None => None end)) in Ei, Ej. cbv beta iota in Ei, Ej. rewrite V1 in Ei. rewrite V2 in Ej. cbn [fst snd] in Ei, Ej. destruct (Nat.ltb_spec (place x ring_order) k); [|discriminate]. destruct (Nat.ltb_spec (place y ring_order) k); [|discriminate]. injection Ei as <-. injection Ej as <-. apply Lt; auto. rewrite Px, Py. lia.
  - intros j p t n Lj E. rewrite nth_error_map in E. destruct (nth_error (ordered k) j) as [x|] eqn:Ex; [|discriminate]. assert (Ix := Inl x (nth_error_In _ _ Ex)). cbn [option_map] in E.
    assert (Hp : (k <= place x ring_order)%nat).
    { apply Nat.nlt_ge. intros L. destruct (place_ok x Ix) as [_ Ep]. assert (Ex2 : nth_error (ordered k) (place x ring_order) = Some x).
      { assert (N1 := Nth _ _ L Ep). rewrite nth_error_map in N1. destruct (nth_error (ordered k) (place x ring_order)) as [y|] eqn:Ey; [|discriminate]. cbn [option_map] in N1. assert (Ly : fst (fst (line_of w y)) = fst (fst (line_of w x)) /\ snd (line_of w y) = snd (line_of w x)) by (apply (f_equal (fun o : option ring => match o with Some l => l | None => line_of w x end)) in N1; cbv beta iota in N1; rewrite N1; auto). unfold line_of in Ly. cbn [fst snd] in Ly. destruct x, y. simpl in Ly. destruct Ly as [-> ->]. reflexivity. }
      assert (Nd : NoDup (ordered k)). { apply (Permutation_NoDup (Permutation_sym Pm)). unfold ring_order. repeat constructor; simpl; intuition discriminate. }
      rewrite NoDup_nth_error in Nd. specialize (Nd j (place x ring_order)). rewrite Ex, Ex2 in Nd. specialize (Nd ltac:(apply nth_error_Some; rewrite Ex; discriminate) eq_refl). lia. }
    assert (V1 := Val x Ix). assert (B := Br x Ix). destruct (Nat.ltb_spec (place x ring_order) k); [lia|]. rewrite V1 in B. unfold line_of in E, V1. cbn [fst snd] in V1. rewrite V1 in E. injection E as <- <- <-. split; [reflexivity|]. split; [|exact B]. apply (Permutation_in _ Pm). rewrite <- surjective_pairing. exact (nth_error_In _ _ Ex).
  - intros p n I. apply (Permutation_in _ (Permutation_sym Pm)) in I. exists (get_two_theta al_cell (hkl_of p) (w / INR n)). apply in_map_iff. exists (p, n). split; [reflexivity|exact I].
Qed.
Print Assumptions C79_rings.

Example C79_case : physical ex_c /\ 0 < 147 / 10 /\ nth_error ring_order 8 = Some ((1, 1, 1)%Z, 1%nat).
Proof. split; [unfold physical, ex_c; simpl; repeat split; lra|]. split; [lra|reflexivity]. Qed.

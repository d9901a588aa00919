(** Properties of peak profiles (C37). *)
From Coq Require Import String List Reals Lra Lia Psatz.
From Coquelicot Require Import Coquelicot.
From Verif Require Import Base FuncModel NumBounds Gauss.
Import ListNotations.
Local Open Scope R_scope.

(** ** Parameter lists concatenate *)
Definition sum (a b : option R) : option R := match a, b with Some x, Some y => Some (x + y) | _, _ => None end.
(** A profile with [k] parameters per peak: appending parameters adds the profile they give on a zero background. *)
Definition concatenates (k : nat) (f : list R -> res (option R)) : Prop := forall n p g, List.length p = (2 + k * n)%nat ->
  exists a b, f p = Ok a /\ f (0 :: 0 :: g) = Ok b /\ f (p ++ g) = Ok (sum a b) /\ ((List.length g < k)%nat -> b = Some 0).
Definition grp (k : nat) (p : list R) (i : nat) : list R := map (fun j => par p (k * i + 2 + j)) (seq 0 k).
Lemma oplus_assoc a b c : oplus (oplus a b) c = oplus a (oplus b c).
Proof. destruct a, b, c; cbn; auto. f_equal. ring. Qed.
Lemma fold_oplus (t : nat -> option R) l : forall a, fold_left (fun f i => oplus f (t i)) l a = oplus a (fold_left (fun f i => oplus f (t i)) l (Some 0)).
Proof.
  induction l as [|i l IH]; intros a; cbn [fold_left]; [destruct a; cbn; auto; f_equal; ring|]. rewrite IH, (IH (oplus (Some 0) (t i))). rewrite <- oplus_assoc. f_equal.
  destruct a, (t i); cbn; auto. f_equal. ring.
Qed.
Lemma fold_ext (t t' : nat -> option R) l a : (forall i, In i l -> t i = t' i) -> fold_left (fun f i => oplus f (t i)) l a = fold_left (fun f i => oplus f (t' i)) l a.
Proof. revert a. induction l as [|i l IH]; intros a E; cbn [fold_left]; auto. rewrite (E i) by now left. apply IH. intros; apply E; now right. Qed.
Lemma fold_shift t n m : forall a, fold_left (fun f i => oplus f (t i)) (seq n m) a = fold_left (fun f i => oplus f (t (n + i)%nat)) (seq 0 m) a.
Proof.
  assert (G : forall m s a, fold_left (fun f i => oplus f (t i)) (seq (n + s) m) a = fold_left (fun f i => oplus f (t (n + i)%nat)) (seq s m) a).
  { clear. induction m as [|m IH]; intros s a; cbn [seq fold_left]; auto. rewrite <- (IH (S s)). now rewrite <- Nat.add_succ_r. }
  intros a. rewrite <- G. now rewrite Nat.add_0_r.
Qed.
Lemma peaks_concat k B T f : (0 < k)%nat -> (forall p, f p = peaks k (B p) (fun i => T (grp k p i)) p) -> (forall p g, (2 <= List.length p)%nat -> B (p ++ g) = B p) -> (forall g, B (0 :: 0 :: g) = 0) -> concatenates k f.
Proof.
  intros Pk Ef Bp Bg n p g L. rewrite !Ef. unfold peaks. rewrite app_length. cbn [List.length].
  assert (E1 : Nat.ltb (List.length p) 2 = false) by (apply Nat.ltb_ge; lia). assert (E2 : Nat.ltb (List.length p + List.length g) 2 = false) by (apply Nat.ltb_ge; lia). rewrite E1, E2. cbn [Nat.ltb Nat.leb].
  assert (D1 : ((List.length p - 2) / k = n)%nat) by (rewrite L; replace (2 + k * n - 2)%nat with (n * k)%nat by lia; apply Nat.div_mul; lia).
  assert (D2 : ((List.length p + List.length g - 2) / k = n + List.length g / k)%nat) by (rewrite L; replace (2 + k * n + List.length g - 2)%nat with (n * k + List.length g)%nat by lia; rewrite Nat.div_add_l; lia).
  replace (S (S (List.length g)) - 2)%nat with (List.length g) by lia. rewrite D1, D2, Bp, Bg by lia. eexists _, _. split; [reflexivity|]. split; [reflexivity|]. split.
  - f_equal. rewrite seq_app, fold_left_app, Nat.add_0_l. rewrite fold_oplus. change sum with oplus. f_equal.
    + apply fold_ext. intros i I. apply in_seq in I. f_equal. unfold grp. apply map_ext_in. intros j J. apply in_seq in J. unfold par. apply app_nth1. nia.
    + rewrite fold_shift. apply fold_ext. intros i I. f_equal. unfold grp. apply map_ext_in. intros j J. apply in_seq in J. unfold par. rewrite app_nth2 by nia. rewrite L. replace (k * (n + i) + 2 + j - (2 + k * n))%nat with (k * i + j)%nat by nia. replace (k * i + 2 + j)%nat with (S (S (k * i + j))) by lia. reflexivity.
  - intros Lg. rewrite Nat.div_small by lia. reflexivity.
Qed.
Ltac background := intros [|? [|? ?]] ?; cbn [List.length]; try lia; reflexivity.
(** C37.  Appending a peak's parameters adds that peak's profile; incomplete groups at the end are ignored. *)
Theorem C37_concatenates : forall x y mode,
  concatenates 3 (fun p => gaussian p x) /\ concatenates 3 (fun p => lorentzian p x) /\ concatenates 4 (fun p => voigt p x) /\
  concatenates 5 (fun p => gaussian2d p x y) /\ concatenates 7 (fun p => resolution p x y mode) /\ concatenates 6 (fun p => gaussian_ring p x y).
Proof.
  intros x y mode.
  assert (PE : forall k B t t' p, (forall i, t i = t' i) -> peaks k B t p = peaks k B t' p) by (intros; unfold peaks; destruct (Nat.ltb _ _); auto; f_equal; apply fold_ext; auto).
  repeat split.
  - apply (peaks_concat 3 (fun p => par p 0 + par p 1 * x) (fun l => let sigma := sigma_of (par l 2) in if Req_EM_T sigma 0 then None else Some (par l 0 / (sigma * sqrt (2 * PI)) * exp (- (x - par l 1) ^ 2 / (2 * sigma ^ 2))))); [lia| |background|intros g; unfold par; cbn [nth]; ring].
    intros p. unfold gaussian. apply PE. intros i. unfold grp. cbn [seq map]. cbv zeta. replace (3 * i + 4)%nat with (3 * i + 2 + 2)%nat by lia. replace (3 * i + 3)%nat with (3 * i + 2 + 1)%nat by lia. rewrite (Nat.add_0_r (3 * i + 2)). reflexivity.
  - apply (peaks_concat 3 (fun p => par p 0 + par p 1 * x) (fun l => odiv (par l 0 / PI * (1 / 2) * par l 2) ((x - par l 1) ^ 2 + (1 / 2 * par l 2) ^ 2))); [lia| |background|intros g; unfold par; cbn [nth]; ring].
    intros p. unfold lorentzian. apply PE. intros i. unfold grp. cbn [seq map]. replace (3 * i + 4)%nat with (3 * i + 2 + 2)%nat by lia. replace (3 * i + 3)%nat with (3 * i + 2 + 1)%nat by lia. rewrite (Nat.add_0_r (3 * i + 2)). reflexivity.
  - apply (peaks_concat 4 (fun p => par p 0 + par p 1 * x) (fun l => let sigma := sigma_of (par l 3) in let gamma := par l 2 / 2 in if Rlt_dec 0 sigma then if Rlt_dec 0 gamma then
      Some (par l 0 / (sigma * sqrt (2 * PI)) * re_wofz ((x - par l 1) / (sigma * sqrt 2)) (gamma / (sigma * sqrt 2))) else None else None)); [lia| |background|intros g; unfold par; cbn [nth]; ring].
    intros p. unfold voigt. apply PE. intros i. unfold grp. cbn [seq map]. cbv zeta. replace (4 * i + 5)%nat with (4 * i + 2 + 3)%nat by lia. replace (4 * i + 4)%nat with (4 * i + 2 + 2)%nat by lia. replace (4 * i + 3)%nat with (4 * i + 2 + 1)%nat by lia. rewrite (Nat.add_0_r (4 * i + 2)). reflexivity.
  - apply (peaks_concat 5 (fun p => par p 0 + par p 1 * (x + y)) (fun l => let sx := sigma_of (par l 3) in let sy := sigma_of (par l 4) in if Req_EM_T (sx * sy) 0 then None
      else Some (par l 0 / (sx * sy * 2 * PI) * exp (- ((x - par l 1) ^ 2 / (2 * sx ^ 2) + (y - par l 2) ^ 2 / (2 * sy ^ 2)))))); [lia| |background|intros g; unfold par; cbn [nth]; ring].
    intros p. unfold gaussian2d. apply PE. intros i. unfold grp. cbn [seq map]. cbv zeta. rewrite (Nat.add_0_r (5 * i + 2)). replace (5 * i + 6)%nat with (5 * i + 2 + 4)%nat by lia. replace (5 * i + 5)%nat with (5 * i + 2 + 3)%nat by lia. replace (5 * i + 4)%nat with (5 * i + 2 + 2)%nat by lia. replace (5 * i + 3)%nat with (5 * i + 2 + 1)%nat by lia. reflexivity.
  - unfold resolution. destruct (String.eqb mode "gaussian").
    + apply (peaks_concat 7 (fun p => par p 0 + par p 1 * (x + y)) (fun l => let xx := par l 4 in let yy := par l 5 in let xy := par l 6 in let r0 := par l 3 in
        if Rlt_dec 0 xx then if Rle_dec 0 (yy - xy ^ 2 / xx) then if Req_EM_T r0 0 then None else let n := sqrt xx * sqrt (yy - xy ^ 2 / xx) / (2 * PI * r0) in
        Some (par l 0 * r0 * n * exp (-1 / 2 * (xx * (x - par l 1) ^ 2 + yy * (y - par l 2) ^ 2 + 2 * xy * (x - par l 1) * (y - par l 2)))) else None else None)); [lia| |background|intros g; unfold par; cbn [nth]; ring].
      intros p. apply PE. intros i. unfold grp. cbn [seq map]. cbv zeta. rewrite (Nat.add_0_r (7 * i + 2)). replace (7 * i + 8)%nat with (7 * i + 2 + 6)%nat by lia. replace (7 * i + 7)%nat with (7 * i + 2 + 5)%nat by lia. replace (7 * i + 6)%nat with (7 * i + 2 + 4)%nat by lia. replace (7 * i + 5)%nat with (7 * i + 2 + 3)%nat by lia. replace (7 * i + 4)%nat with (7 * i + 2 + 2)%nat by lia. replace (7 * i + 3)%nat with (7 * i + 2 + 1)%nat by lia. reflexivity.
    + apply (peaks_concat 7 (fun p => par p 0 + par p 1 * (x + y)) (fun l => Some 0)); [lia|reflexivity|background|intros g; unfold par; cbn [nth]; ring].
  - apply (peaks_concat 6 (fun p => par p 0 + par p 1 * (x + y)) (fun l => let r0 := par l 3 in let ecc := par l 4 in let fwhm := par l 5 in let sigma := sigma_of fwhm in
      if Req_EM_T sigma 0 then None else if Req_EM_T ecc 0 then None else
      let n := 2 * PI * (exp (- r0 ^ 2 / (2 * sigma ^ 2)) * sigma ^ 2 + sqrt (PI / 2) * r0 * sigma * (1 + erf (r0 / (sqrt 2 * sigma)))) / ecc in if Req_EM_T n 0 then None else
      Some (par l 0 / n * exp (-4 * ln 2 * (sqrt ((x - par l 1) ^ 2 + ecc ^ 2 * (y - par l 2) ^ 2) - r0) ^ 2 / fwhm ^ 2)))); [lia| |background|intros g; unfold par; cbn [nth]; ring].
    intros p. unfold gaussian_ring. apply PE. intros i. unfold grp. cbn [seq map]. cbv zeta. rewrite (Nat.add_0_r (6 * i + 2)). replace (6 * i + 7)%nat with (6 * i + 2 + 5)%nat by lia. replace (6 * i + 6)%nat with (6 * i + 2 + 4)%nat by lia. replace (6 * i + 5)%nat with (6 * i + 2 + 3)%nat by lia. replace (6 * i + 4)%nat with (6 * i + 2 + 2)%nat by lia. replace (6 * i + 3)%nat with (6 * i + 2 + 1)%nat by lia. reflexivity.
Qed.
Print Assumptions C37_concatenates.

(** C62: the choice of the monitor correction. *)
From Coq Require Import List ZArith Reals Lra.
From Verif Require Import Base MatInv TasModel TasProof TasMirror TasWide TasCase TasProps TasMosProps.
Import ListNotations.
Local Open Scope R_scope.

(** The same instrument with another attribute moncor, or without it. *)
Definition with_moncor (m : option Z) (t : tas) : tas :=
  mkTas (t_method t) m (t_hcol t) (t_vcol t) (t_mono t) (t_ana t) (t_thickness t) (t_Q t) (t_infin t) (t_efixed t)
    (t_arms t) (t_horifoc t) (t_guide t) (t_monitor t) (t_detector t) (s_dir t) (s_mosaic t) (s_vmosaic t) (s_type t) (s_width t) (s_height t) (s_depth t) (s_shape t).
(** With another monitor as well. *)
Definition variant (m : option Z) (o : option window) (t : tas) : tas := with_moncor m (with_monitor o t).
Lemma Sinv_c m o t g sh : Sinv (variant m o t) g sh = Sinv t g sh. Proof. reflexivity. Qed.
Lemma Ninv_c m o t v Ls g sh : Ninv (variant m o t) v Ls g sh = Ninv t v Ls g sh. Proof. reflexivity. Qed.
Lemma mosaic_c m o t q A B r : with_mosaic (variant m o t) q A B r = with_mosaic t q A B r. Proof. reflexivity. Qed.
Lemma Fm_c m o t : Fm (variant m o t) = Fm t. Proof. reflexivity. Qed.
Section Same.
  Context (m m' : option Z) (o o' : option window) (t : tas) (E : forall v L0 Lm g HG M, prefactor (variant m o t) v L0 Lm g HG M = prefactor (variant m' o' t) v L0 Lm g HG M).
  Lemma resolution_c v Ls g sh : resolution_at (variant m o t) v Ls g sh = resolution_at (variant m' o' t) v Ls g sh.
  Proof.
    destruct Ls as [[[[L0 L1] L2] L3] Lm]. unfold resolution_at. rewrite !Sinv_c, !Ninv_c. generalize (minv 13 (Sinv t g sh)). intros [S|]; cbn [ob]; [|reflexivity].
    generalize (Ninv t v (L0, L1, L2, L3) g sh). intros [[N HG]|]; cbn [ob]; [|reflexivity]. generalize (minv 4 (Minv g N)). intros [M|]; cbn [ob]; [|reflexivity].
    rewrite E. generalize (prefactor (variant m' o' t) v L0 Lm g HG M). intros [r|]; cbn [ob]; [|reflexivity]. rewrite !mosaic_c. generalize (with_mosaic t (g_q g) (Minv g N) M r). intros [[r' M']|]; cbn [ob]; [|reflexivity].
    change (t_thickness (variant m o t)) with (t_thickness t). change (t_thickness (variant m' o' t)) with (t_thickness t). change (t_Q (variant m o t)) with (t_Q t). change (t_Q (variant m' o' t)) with (t_Q t).
    generalize (t_thickness t), (t_Q t). intros [a|] [b|]; reflexivity.
  Qed.
  Lemma point_c Ls v ind q w : point (variant m o t) Ls v ind q w = point (variant m' o' t) Ls v ind q w.
  Proof.
    unfold point. change (sshapes (variant m o t) ind) with (sshapes t ind). change (sshapes (variant m' o' t) ind) with (sshapes t ind). destruct (sshapes t ind) as [sh|]; [|reflexivity].
    change (energies (variant m o t) w) with (energies t w). change (energies (variant m' o' t) w) with (energies t w). destruct (energies t w) as [ei ef]. cbv zeta. rewrite resolution_c. reflexivity.
  Qed.
  Lemma loop_c Ls : forall l v ind, loop (variant m o t) Ls v ind l = loop (variant m' o' t) Ls v ind l.
  Proof. induction l as [|[q w] l IH]; intros v ind; [reflexivity|]. cbn [loop]. rewrite point_c. destruct (point (variant m' o' t) Ls v ind q w) as [[v' x]|]; cbn [bind]; [|reflexivity]. rewrite IH. reflexivity. Qed.
  Lemma calc_c l : calc_in_Q (variant m o t) l = calc_in_Q (variant m' o' t) l.
  Proof. unfold calc_in_Q. change (lengths (variant m o t)) with (lengths t). change (lengths (variant m' o' t)) with (lengths t). destruct (lengths t) as [Ls|]; cbn [bind]; [|reflexivity]. apply loop_c. Qed.
End Same.
Lemma as_variant m t : with_moncor m t = variant m (t_monitor t) t.
Proof. destruct t. reflexivity. Qed.

(** C62.  Without the attribute moncor every result is the one for moncor=1, and every number but 1 has the results of 0. *)
Theorem C62_moncor : forall t l, calc_in_Q (with_moncor None t) l = calc_in_Q (with_moncor (Some 1%Z) t) l /\ forall k, k <> 1%Z -> calc_in_Q (with_moncor (Some k) t) l = calc_in_Q (with_moncor (Some 0%Z) t) l.
Proof.
  intros t l. rewrite !as_variant. split; [apply calc_c; reflexivity|]. intros k K. rewrite !as_variant. apply calc_c. intros v L0 Lm g HG M. unfold prefactor. rewrite !Fm_c.
  change (moncor (variant (Some k) (t_monitor t) t)) with k. change (moncor (variant (Some 0%Z) (t_monitor t) t)) with 0%Z. rewrite (proj2 (Z.eqb_neq k 1) K). reflexivity.
Qed.
Print Assumptions C62_moncor.
(** C62.  Without the correction the monitor has no influence on any result, present or not. *)
Theorem C62_no_monitor : forall t l k a b, k <> 1%Z -> calc_in_Q (with_moncor (Some k) (with_monitor a t)) l = calc_in_Q (with_moncor (Some k) (with_monitor b t)) l.
Proof.
  intros t l k a b K. apply (calc_c (Some k) (Some k) a b t). intros v L0 Lm g HG M. unfold prefactor. rewrite !Fm_c.
  change (moncor (variant (Some k) a t)) with k. change (moncor (variant (Some k) b t)) with k. rewrite (proj2 (Z.eqb_neq k 1) K). reflexivity.
Qed.
Print Assumptions C62_no_monitor.
(** A monitor of no size does no harm then. *)
Example C62_no_monitor_ex : let t := case 1 (Some (MNum 1)) None (Some 10) None in exists r M,
  calc_in_Q (with_moncor (Some 0%Z) (with_monitor (Some (mkW (Some 0) (Some 0))) t)) [(3, 2072 / 1000 * (3 * 3 - 9))] = Ok [Some (r, M)] /\ 0 < r.
Proof.
  intros t. set (q := (3, 2072 / 1000 * (3 * 3 - 9))). assert (U : usable (with_moncor (Some 0%Z) t) 1) by exact (case_usable 1 (Some (MNum 1)) None (Some 10) None 1 ltac:(lra) Logic.I).
  assert (R : reachable (with_moncor (Some 0%Z) t) q) by (apply (case_reach 1 (Some (MNum 1)) None (Some 10) None 3 3); [lra|rewrite Rabs_pos_eq by lra; lra]).
  destruct (C42_positive (with_moncor (Some 0%Z) t) [q] U (Forall_cons q R (Forall_nil _))) as (rs & E & F). inversion F as [|? o ? l H F']; subst. inversion F'; subst. destruct H as (r & M & -> & P & _). exists r, M. split; [|exact P].
  rewrite (C62_no_monitor t _ 0%Z _ (t_monitor t)) by discriminate. exact E.
Qed.

From Coq Require Import String List QArith Qabs Qround Bool Arith Lia Lqa ZArith Permutation.
From Verif Require Import Base DataModel DataSpec DataProof CombineProof OpsModel OpsSpec.
Import ListNotations.
Local Open Scope string_scope.

(** ** Column lemmas *)
Lemma lookup_set_same ks r k v w : lookup ks r k = Some w -> lookup ks (set_in_row ks r k v) k = Some v.
Proof.
  revert r; induction ks; intros [|x r]; simpl; try discriminate.
  destruct (String.eqb_spec a k); simpl.
  - auto.
  - auto.
Qed.
Lemma lookup_set_other ks r k k' v : k <> k' -> lookup ks (set_in_row ks r k v) k' = lookup ks r k'.
Proof.
  intros N. revert r; induction ks; intros [|x r]; simpl; auto.
  destruct (String.eqb_spec a k); simpl; destruct (String.eqb_spec a k'); subst; auto; tauto.
Qed.
Lemma set_in_row_length ks r k v : length (set_in_row ks r k v) = length r.
Proof. revert r; induction ks; intros [|x r]; simpl; auto. destruct (String.eqb a k); simpl; auto. Qed.

Lemma col_some tb k c : col tb k = Some c -> c = map (fun r => getq (keys tb) r k) (rows tb) /\ In k (keys tb).
Proof.
  unfold col. destruct (mem k (keys tb)) eqn:M; [|discriminate]. intros E; inversion E. split; auto.
  now apply mem_In.
Qed.
Lemma col_intro tb k : In k (keys tb) -> col tb k = Some (map (fun r => getq (keys tb) r k) (rows tb)).
Proof. intros H. unfold col. apply mem_In in H. now rewrite H. Qed.
Lemma col_length tb k c : col tb k = Some c -> length c = length (rows tb).
Proof. intros H. apply col_some in H. destruct H as [-> _]. apply map_length. Qed.

Lemma map_opt_Forall2 {A B} (f : A -> option B) l l' :
  map_opt f l = Some l' -> Forall2 (fun a b => f a = Some b) l l'.
Proof.
  revert l'; induction l; simpl; intros l' E; [inversion E; constructor|].
  destruct (f a) eqn:Ea; [|discriminate]. destruct (map_opt f l); [|discriminate].
  inversion E; constructor; auto.
Qed.
Lemma Forall2_map_opt {A B} (f : A -> option B) l l' :
  Forall2 (fun a b => f a = Some b) l l' -> map_opt f l = Some l'.
Proof. induction 1; simpl; auto. now rewrite H, IHForall2. Qed.

Lemma binop_frame o d x d' :
  wf_table (tab d) -> binop_data o d x = Some d' ->
  keys (tab d') = keys (tab d) /\ dk d' = dk d /\ m0 d' = m0 d /\ t0 d' = t0 d /\
  err d' = err d /\ time_norm d' = time_norm d /\ wf_table (tab d') /\
  (forall k, k <> kdet (dk d) -> col (tab d') k = col (tab d) k) /\
  (forall c, col (tab d) (kdet (dk d)) = Some c ->
     exists c', col (tab d') (kdet (dk d)) = Some c' /\ Forall2 (fun v v' => op_value o v x = Some v') c c').
Proof.
  intros [N F] E. unfold binop_data in E. destruct (map_opt _ _) as [rs|] eqn:Em; [|discriminate].
  inversion E; subst d'; clear E. cbn [tab dk m0 t0 err time_norm keys rows].
  apply map_opt_Forall2 in Em.
  repeat (split; [reflexivity|]). split; [|split].
  - split; auto. cbn [rows keys]. clear - Em F. induction Em; inversion F; subst; constructor; auto.
    destruct (lookup _ _ _); [destruct (op_value o q x)|]; inversion H; subst; auto.
    now rewrite set_in_row_length.
  - intros k Hk. unfold col. cbn [keys rows]. destruct (mem k (keys (tab d))); auto. f_equal.
    clear - Em Hk. induction Em; simpl; auto. f_equal; auto.
    destruct (lookup (keys (tab d)) x0 (kdet (dk d))); [destruct (op_value o q x)|]; inversion H; subst; auto.
    rewrite lookup_set_other; auto.
  - intros c Hc. apply col_some in Hc. destruct Hc as [-> I].
    rewrite col_intro by auto. eexists; split; [reflexivity|]. cbn [keys rows].
    clear - Em F I. induction Em; simpl; [constructor|]. inversion F; subst. constructor; auto.
    unfold getq. destruct (lookup_some (keys (tab d)) x0 (kdet (dk d)) H2 I) as [v Ev].
    rewrite Ev in *. destruct (op_value o v x) eqn:Eo; inversion H; subst. now erewrite lookup_set_same by eauto.
Qed.

(** ** nanmax *)
Lemma fold_qmax l : forall x, is_largest (fold_left qmax l x) (x :: l).
Proof.
  induction l as [|y l IH]; intros x; simpl.
  - split; [now left|]. constructor; auto. apply Qle_refl.
  - destruct (IH (qmax x y)) as [I F]. split.
    + destruct I as [I|I]; [|right; right; auto]. rewrite <- I. unfold qmax. destruct (Qle_bool x y); simpl; auto.
    + inversion F; subst. assert (x <= qmax x y /\ y <= qmax x y).
      { unfold qmax. destruct (Qle_bool x y) eqn:E; split; try apply Qle_refl.
        - now apply Qle_bool_iff. 
        - destruct (Qlt_le_dec x y); [|auto]. apply Qlt_le_weak, Qle_bool_iff in q. congruence. }
      destruct H. constructor; [eapply Qle_trans; eauto|]. constructor; auto. eapply Qle_trans; eauto.
Qed.
Lemma nanmax_largest l m : nanmax l = Ok m -> is_largest m l.
Proof. destruct l; simpl; [discriminate|]. intros E; inversion E. apply fold_qmax. Qed.

Lemma qmax_scale c a b : 0 < c -> qmax (a * c) (b * c) = qmax a b * c.
Proof.
  intros Hc. unfold qmax.
  replace (Qle_bool (a * c) (b * c)) with (Qle_bool a b).
  - destruct (Qle_bool a b); auto.
  - apply eq_true_iff_eq. rewrite !Qle_bool_iff. symmetry. now apply Qmult_le_r.
Qed.
Lemma fold_qmax_scale c l : 0 < c -> forall x, fold_left qmax (map (fun v => v * c) l) (x * c) = fold_left qmax l x * c.
Proof. intros Hc; induction l; intros x; simpl; auto. now rewrite qmax_scale. Qed.
Lemma nanmax_scale c l m : 0 < c -> nanmax l = Ok m -> nanmax (map (fun v => v * c) l) = Ok (m * c).
Proof. destruct l; simpl; [discriminate|]. intros Hc E; inversion E. now rewrite fold_qmax_scale. Qed.

(** ** Intensity *)
Lemma zip_with_Forall2 {A B C} (f : A -> B -> C) l1 l2 : length l1 = length l2 ->
  zip_with f l1 l2 = map (fun ab => f (fst ab) (snd ab)) (List.combine l1 l2).
Proof. revert l2; induction l1; intros [|b l2]; simpl; intros; try lia; auto. now rewrite IHl1 by lia. Qed.

Definition fvals (m : Q) (det nrm : list Q) : list (option Q) :=
  zip_with (fun a b => option_map (fun q => q * m) (fdiv a b)) det nrm.

Lemma fvals_normalised m det nrm : length det = length nrm ->
  Forall2 (fun ab v => normalised m (fst ab) (snd ab) v) (List.combine det nrm) (fvals m det nrm).
Proof.
  unfold fvals. revert nrm; induction det; intros [|b nrm]; simpl; intros; try lia; constructor; auto.
  unfold normalised, fdiv. simpl. destruct (Qeq_bool b 0) eqn:E.
  - left. split; auto. now apply Qeq_bool_iff.
  - right. split; [now apply Qeq_bool_neq|]. eexists; split; [reflexivity|]. reflexivity.
Qed.

Lemma intensity_eq d vals d' : intensity d = Ok (vals, d') ->
  exists det nrm m, col (tab d) (kdet (dk d)) = Some det /\ col (tab d) (norm_key d) = Some nrm /\
     reference d = Ok (m, d') /\ vals = fvals m det nrm /\ length det = length nrm.
Proof.
  unfold intensity, getcol. destruct (col (tab d) (kdet (dk d))) as [det|] eqn:E1; [|discriminate].
  destruct (col (tab d) (norm_key d)) as [nrm|] eqn:E2; [|discriminate].
  destruct (reference d) as [[m d2]|] eqn:Er; [|discriminate]. intros E; inversion E; subst.
  exists det, nrm, m. repeat split; auto. rewrite (col_length _ _ _ E1), (col_length _ _ _ E2); auto.
Qed.

Lemma fresh_ok tb k tn d : fresh tb k tn = Ok d ->
  exists mon tim m t, col tb (kmon k) = Some mon /\ col tb (ktime k) = Some tim /\
    nanmax mon = Ok m /\ nanmax tim = Ok t /\ d = mkData tb k m t None tn.
Proof.
  unfold fresh, getcol. destruct (col tb (kmon k)) as [mon|] eqn:E1; [|discriminate].
  destruct (col tb (ktime k)) as [tim|] eqn:E2; [|discriminate].
  destruct (nanmax mon) as [m|] eqn:E3; [|discriminate]. destruct (nanmax tim) as [t|] eqn:E4; [|discriminate].
  intros E; inversion E; subst. exists mon, tim, m, t. auto.
Qed.

Lemma fresh_reference tb k tn d : fresh tb k tn = Ok d ->
  exists nrm m, col tb (norm_key d) = Some nrm /\ nanmax nrm = Ok m /\
    exists d', reference d = Ok (m, d').
Proof.
  intros H. apply fresh_ok in H. destruct H as (mon & tim & m & t & H1 & H2 & H3 & H4 & ->).
  unfold reference, norm_key, getcol; cbn [time_norm dk tab t0 m0].
  destruct tn; cbn [time_norm]; [rewrite H2|rewrite H1].
  - exists tim, t. rewrite H4. split; auto. split; auto. destruct (Qeq_bool t 0); eauto.
  - exists mon, m. rewrite H3. split; auto. split; auto. destruct (Qeq_bool m 0); eauto.
Qed.

Lemma fresh_intensity tb k tn d vals d' :
  fresh tb k tn = Ok d -> intensity d = Ok (vals, d') ->
  exists det nrm m, col tb (kdet k) = Some det /\ col tb (norm_column d) = Some nrm /\
    is_largest m nrm /\
    Forall2 (fun ab v => normalised m (fst ab) (snd ab) v) (List.combine det nrm) vals.
Proof.
  intros Hf Hi. assert (Hr := fresh_reference _ _ _ _ Hf). destruct Hr as (nrm & m & H1 & H2 & d2 & H3).
  apply intensity_eq in Hi. destruct Hi as (det & nrm' & m' & E1 & E2 & E3 & -> & L).
  assert (tab d = tb /\ dk d = k) as [Et Ek].
  { apply fresh_ok in Hf. destruct Hf as (? & ? & ? & ? & ? & ? & ? & ? & ->). auto. }
  rewrite Et, Ek in *. rewrite H1 in E2. inversion E2; subst nrm'. rewrite H3 in E3. inversion E3; subst.
  exists det, nrm, m'. split; auto. split; auto. split; [now apply nanmax_largest|].
  now apply fvals_normalised.
Qed.

Lemma fresh_intensity_total tb k tn :
  rows tb <> [] -> In (kdet k) (keys tb) -> In (kmon k) (keys tb) -> In (ktime k) (keys tb) ->
  exists d vals d', fresh tb k tn = Ok d /\ intensity d = Ok (vals, d').
Proof.
  intros Hn H1 H2 H3.
  assert (NM : forall c, length c = length (rows tb) -> exists m, nanmax c = Ok m).
  { intros [|x c]; simpl; eauto. destruct (rows tb); [tauto|discriminate]. }
  destruct (NM (map (fun r => getq (keys tb) r (kmon k)) (rows tb))) as [m Em]; [apply map_length|].
  destruct (NM (map (fun r => getq (keys tb) r (ktime k)) (rows tb))) as [t Et]; [apply map_length|].
  assert (Hf : fresh tb k tn = Ok (mkData tb k m t None tn)).
  { unfold fresh, getcol. rewrite (col_intro tb (kmon k)), (col_intro tb (ktime k)) by auto. now rewrite Em, Et. }
  exists (mkData tb k m t None tn).
  destruct (fresh_reference _ _ _ _ Hf) as (nrm & m' & E1 & E2 & d' & E3).
  unfold intensity, getcol. rewrite E3. cbn [tab dk].
  rewrite (col_intro tb (kdet k)) by auto.
  rewrite E1. do 2 eexists. split; [exact Hf|reflexivity].
Qed.

Lemma col_map_col_same k f tb c : wf_table tb -> col tb k = Some c -> col (map_col k f tb) k = Some (map f c).
Proof.
  intros [N F] Hc. apply col_some in Hc. destruct Hc as [-> I].
  rewrite col_intro by auto. cbn [map_col keys rows]. f_equal. rewrite !map_map.
  apply map_ext_in. intros r Hr. rewrite Forall_forall in F.
  destruct (lookup_some (keys tb) r k (F r Hr) I) as [v Ev]. unfold getq. rewrite Ev.
  now erewrite lookup_set_same by eauto.
Qed.
Lemma col_map_col_other k k' f tb : k <> k' -> col (map_col k f tb) k' = col tb k'.
Proof.
  intros H. unfold col. cbn [map_col keys rows]. destruct (mem k' (keys tb)); auto. f_equal.
  rewrite map_map. apply map_ext. intros r. destruct (lookup (keys tb) r k); auto.
  now rewrite lookup_set_other.
Qed.

Lemma fvals_scale_norm c m det nrm : 0 < c ->
  Forall2 oeq (fvals (m * c) det (map (fun v => v * c) nrm)) (fvals m det nrm).
Proof.
  intros Hc. unfold fvals. revert nrm; induction det; intros [|b nrm]; simpl; constructor; auto.
  unfold fdiv.
  replace (Qeq_bool (b * c) 0) with (Qeq_bool b 0).
  - destruct (Qeq_bool b 0) eqn:E; simpl; auto. apply Qeq_bool_neq in E. field. split; auto. lra.
  - apply eq_true_iff_eq. rewrite !Qeq_bool_iff. split; intros H.
    + rewrite H. ring.
    + apply Qmult_integral in H. destruct H; auto. lra.
Qed.

Lemma fvals_scale_det c m det nrm :
  Forall2 oeq (fvals m (map (fun v => v * c) det) nrm) (map (option_map (fun q => q * c)) (fvals m det nrm)).
Proof.
  unfold fvals. revert nrm; induction det; intros [|b nrm]; simpl; constructor; auto.
  unfold fdiv. destruct (Qeq_bool b 0) eqn:E; simpl; auto. apply Qeq_bool_neq in E. field. auto.
Qed.

Lemma intensity_monitor_scale tb k tn c d1 d2 v1 v2 s1 s2 :
  wf_table tb -> 0 < c -> kdet k <> kmon k -> kdet k <> ktime k -> kmon k <> ktime k ->
  fresh tb k tn = Ok d1 -> fresh (map_col (norm_column d1) (fun x => x * c) tb) k tn = Ok d2 ->
  intensity d1 = Ok (v1, s1) -> intensity d2 = Ok (v2, s2) -> Forall2 oeq v2 v1.
Proof.
  intros W Hc N1 N2 N3 F1 F2 I1 I2.
  destruct (fresh_reference _ _ _ _ F1) as (n1 & m1 & A1 & A2 & e1 & A3).
  destruct (fresh_reference _ _ _ _ F2) as (n2 & m2 & B1 & B2 & e2 & B3).
  assert (tab d1 = tb /\ dk d1 = k /\ time_norm d1 = tn) as (T1 & K1 & TN1).
  { apply fresh_ok in F1. destruct F1 as (? & ? & ? & ? & ? & ? & ? & ? & ->). auto. }
  assert (tab d2 = map_col (norm_column d1) (fun x => x * c) tb /\ dk d2 = k /\ time_norm d2 = tn) as (T2 & K2 & TN2).
  { apply fresh_ok in F2. destruct F2 as (? & ? & ? & ? & ? & ? & ? & ? & ->). auto. }
  assert (NK : norm_key d2 = norm_key d1) by (unfold norm_key; now rewrite K1, K2, TN1, TN2).
  assert (NC : norm_column d1 = norm_key d1) by reflexivity.
  apply intensity_eq in I1. destruct I1 as (det & nrm & m & E1 & E2 & E3 & -> & L1).
  apply intensity_eq in I2. destruct I2 as (det' & nrm' & m' & G1 & G2 & G3 & -> & L2).
  rewrite T1, K1 in *. rewrite T2, K2, NK, NC in *.
  rewrite A1 in E2. inversion E2; subst nrm. rewrite A3 in E3. inversion E3; subst m s1.
  rewrite B3 in G3. inversion G3; subst m' s2. rewrite B1 in G2. inversion G2; subst nrm'.
  assert (DN : norm_key d1 <> kdet k). { unfold norm_key. rewrite K1, TN1. destruct tn; auto. }
  rewrite col_map_col_other in G1 by auto. rewrite E1 in G1. inversion G1; subst det'.
  rewrite (col_map_col_same _ _ _ _ W A1) in B1. inversion B1; subst n2.
  rewrite (nanmax_scale c n1 m1 Hc A2) in B2. inversion B2; subst m2.
  now apply fvals_scale_norm.
Qed.

Lemma intensity_detector_scale tb k tn c d1 d2 v1 v2 s1 s2 :
  wf_table tb -> kdet k <> kmon k -> kdet k <> ktime k ->
  fresh tb k tn = Ok d1 -> fresh (map_col (kdet k) (fun x => x * c) tb) k tn = Ok d2 ->
  intensity d1 = Ok (v1, s1) -> intensity d2 = Ok (v2, s2) ->
  Forall2 oeq v2 (map (option_map (fun q => q * c)) v1).
Proof.
  intros W N1 N2 F1 F2 I1 I2.
  destruct (fresh_reference _ _ _ _ F1) as (n1 & m1 & A1 & A2 & e1 & A3).
  destruct (fresh_reference _ _ _ _ F2) as (n2 & m2 & B1 & B2 & e2 & B3).
  assert (tab d1 = tb /\ dk d1 = k /\ time_norm d1 = tn) as (T1 & K1 & TN1).
  { apply fresh_ok in F1. destruct F1 as (? & ? & ? & ? & ? & ? & ? & ? & ->). auto. }
  assert (tab d2 = map_col (kdet k) (fun x => x * c) tb /\ dk d2 = k /\ time_norm d2 = tn) as (T2 & K2 & TN2).
  { apply fresh_ok in F2. destruct F2 as (? & ? & ? & ? & ? & ? & ? & ? & ->). auto. }
  assert (NK : norm_key d2 = norm_key d1) by (unfold norm_key; now rewrite K1, K2, TN1, TN2).
  apply intensity_eq in I1. destruct I1 as (det & nrm & m & E1 & E2 & E3 & -> & L1).
  apply intensity_eq in I2. destruct I2 as (det' & nrm' & m' & G1 & G2 & G3 & -> & L2).
  rewrite T1, K1 in *. rewrite T2, K2, NK in *.
  rewrite A1 in E2. inversion E2; subst nrm. rewrite A3 in E3. inversion E3; subst m s1.
  rewrite B3 in G3. inversion G3; subst m' s2. rewrite B1 in G2. inversion G2; subst nrm'.
  assert (DN : kdet k <> norm_key d1). { unfold norm_key. rewrite K1, TN1. destruct tn; auto. }
  rewrite col_map_col_other in B1 by auto. rewrite A1 in B1. inversion B1; subst n2.
  rewrite A2 in B2. inversion B2; subst m2.
  rewrite (col_map_col_same _ _ _ _ W E1) in G1. inversion G1; subst det'.
  apply fvals_scale_det.
Qed.

(** error: squared error is detector * (reference / norm)^2 for data without explicit error *)
Lemma fresh_error tb k tn d vals d' :
  fresh tb k tn = Ok d -> error_sq d = Ok (vals, d') ->
  exists det nrm m, col tb (kdet k) = Some det /\ col tb (norm_column d) = Some nrm /\
    is_largest m nrm /\
    Forall2 (fun ab v => (snd ab == 0 /\ v = None) \/
                         (~ snd ab == 0 /\ exists q, v = Some q /\ q == fst ab * ((m / snd ab) * (m / snd ab))))
            (List.combine det nrm) vals.
Proof.
  intros Hf Hi. assert (Hr := fresh_reference _ _ _ _ Hf). destruct Hr as (nrm & m & H1 & H2 & d2 & H3).
  assert (tab d = tb /\ dk d = k /\ err d = None) as (Et & Ek & Ee).
  { apply fresh_ok in Hf. destruct Hf as (? & ? & ? & ? & ? & ? & ? & ? & ->). auto. }
  unfold error_sq, getcol in Hi. rewrite Et, Ek, Ee, H1, H3 in Hi.
  destruct (col tb (kdet k)) as [det|] eqn:E1; [|discriminate]. inversion Hi; subst vals d'.
  exists det, nrm, m. split; auto. split; auto. split; [now apply nanmax_largest|].
  assert (L : length det = length nrm) by (rewrite (col_length _ _ _ E1), (col_length _ _ _ H1); auto).
  clear - L. revert nrm L; induction det; intros [|b nrm]; simpl; intros; try lia; constructor; auto.
  unfold fdiv. cbn [fst snd]. destruct (Qeq_bool b 0) eqn:E.
  - left. apply Qeq_bool_iff in E. split; auto.
    replace (Qeq_bool (b * b) 0) with true; auto. symmetry; apply Qeq_bool_iff. rewrite E. ring.
  - right. apply Qeq_bool_neq in E. split; auto.
    replace (Qeq_bool (b * b) 0) with false.
    + eexists; split; [reflexivity|]. field; auto.
    + symmetry. apply not_true_iff_false. rewrite Qeq_bool_iff. intros H. apply Qmult_integral in H. tauto.
Qed.

(** the reference is frozen *)
Lemma reference_frozen d tb : ~ (if time_norm d then t0 d else m0 d) == 0 ->
  exists d', reference (mkData tb (dk d) (m0 d) (t0 d) (err d) (time_norm d)) = Ok (if time_norm d then t0 d else m0 d, d').
Proof.
  intros H. unfold reference; cbn [time_norm t0 m0]. 
  destruct (Qeq_bool (if time_norm d then t0 d else m0 d) 0) eqn:E.
  - apply Qeq_bool_iff in E. tauto.
  - eauto.
Qed.

(** ** Background subtraction *)
Lemma oeq_refl a : oeq a a.
Proof. destruct a; simpl; auto. reflexivity. Qed.

Lemma fdiv_one (x : Q) : fdiv x 1 = Some (x / 1).
Proof. reflexivity. Qed.

Lemma sub_intensity_list l : Forall2 oeq
  (zip_with (fun a b => match a with Some x => option_map (fun q => q * 1) (fdiv x b) | None => None end)
     l (map (fun _ => 1) l)) l.
Proof.
  induction l as [|[x|] l IH]; simpl; constructor; auto; simpl; auto. field.
Qed.

Lemma sub_error_list l n : length l = length n -> Forall2 oeq
  (zip_with (fun a b => match a with Some x => option_map (fun q => q * (1 * 1)) (fdiv x (b * b)) | None => None end)
     l (map (fun _ : option Q => 1) n)) l.
Proof.
  revert n; induction l as [|[x|] l IH]; intros [|y n]; simpl; intros; try lia; constructor; auto; simpl; auto. field.
Qed.

Lemma zip_with_length {A B C} (f : A -> B -> C) l1 l2 : length (zip_with f l1 l2) = Nat.min (length l1) (length l2).
Proof. revert l2; induction l1; intros [|b l2]; simpl; auto. Qed.

Lemma intensity_length d v s : intensity d = Ok (v, s) -> length v = length (rows (tab d)).
Proof.
  intros H. apply intensity_eq in H. destruct H as (det & nrm & m & E1 & E2 & E3 & -> & L).
  unfold fvals. rewrite zip_with_length, <- L, (col_length _ _ _ E1). apply Nat.min_id.
Qed.
Lemma error_length d v s : (match err d with Some e => length e = length (rows (tab d)) | None => True end) ->
  error_sq d = Ok (v, s) -> length v = length (rows (tab d)).
Proof.
  unfold error_sq, getcol. intros He. destruct (col (tab d) (kdet (dk d))) as [det|] eqn:E1; [|discriminate].
  destruct (col (tab d) (norm_key d)) as [nrm|] eqn:E2; [|discriminate].
  destruct (reference d) as [[m d2]|]; [|discriminate]. intros E; inversion E.
  rewrite zip_with_length, (col_length _ _ _ E2).
  destruct (err d); [rewrite map_length, He|rewrite (col_length _ _ _ E1)]; apply Nat.min_id.
Qed.

Lemma subtract_law self bg i1 i2 e1 e2 s1 s2 s3 s4 :
  intensity self = Ok (i1, s1) -> intensity bg = Ok (i2, s2) ->
  error_sq self = Ok (e1, s3) -> error_sq bg = Ok (e2, s4) ->
  length i1 = length i2 -> length e1 = length i1 -> length e2 = length i2 ->
  exists s, subtract self bg = Ok s /\
    s_coords s = map (pos self) (rows (tab self)) /\ s_time_norm s = time_norm self /\
    Forall2 oeq (s_intensity s) (zip_with (opt2 Qminus) i1 i2) /\
    Forall2 oeq (s_error_sq s) (zip_with (opt2 qmax) e1 e2).
Proof.
  intros H1 H2 H3 H4 L1 L2 L3. unfold subtract. rewrite H1, H2, H3, H4.
  unfold broadcast. rewrite L1, Nat.eqb_refl. eexists; split; [reflexivity|].
  unfold s_intensity, s_error_sq, s_ref, s_norm; cbn [s_coords s_detector s_monitor s_time s_m0 s_t0 s_errsq s_time_norm].
  split; [reflexivity|]. split; [reflexivity|]. destruct (time_norm self); split; cbv iota.
  - apply sub_intensity_list.
  - apply sub_error_list. rewrite !zip_with_length. lia.
  - apply sub_intensity_list.
  - apply sub_error_list. rewrite !zip_with_length. lia.
Qed.

Lemma subtract_length_mismatch self bg i1 i2 e1 e2 s1 s2 s3 s4 :
  intensity self = Ok (i1, s1) -> intensity bg = Ok (i2, s2) ->
  error_sq self = Ok (e1, s3) -> error_sq bg = Ok (e2, s4) ->
  length i1 <> length i2 -> length i1 <> 1%nat -> length i2 <> 1%nat ->
  subtract self bg = Err ValueError.
Proof.
  intros H1 H2 H3 H4 L1 L2 L3. unfold subtract. rewrite H1, H2, H3, H4.
  unfold broadcast. destruct (Nat.eqb_spec (length i1) (length i2)); [tauto|].
  destruct i1 as [|? [|]]; simpl in *; try lia; destruct i2 as [|? [|]]; simpl in *; try lia; auto.
Qed.

Lemma self_subtract_zero l : Forall (fun v => v <> None) l ->
  Forall2 oeq (zip_with (opt2 Qminus) l l) (map (fun _ => Some 0) l).
Proof.
  induction 1; simpl; constructor; auto. destruct x; [|tauto]. simpl. ring.
Qed.

(** ** Constructor *)
Lemma list_max_const n l : l <> [] -> Forall (fun x => x = n) l -> list_max l = n.
Proof.
  intros H F. destruct l; [tauto|]. clear H. inversion F; subst. simpl. clear F.
  induction H2; simpl; [apply Nat.max_0_r|]. subst. lia.
Qed.

Lemma n_dim_spec n h k l e temp det mon tim :
  Forall (fits n) [h; k; l; e; temp; det; mon; tim] ->
  Exists is_array [h; k; l; e; temp; det; mon; tim] ->
  n_dim h k l e temp det mon tim = n.
Proof.
  unfold n_dim. generalize [h; k; l; e; temp; det; mon; tim] as args. intros args F X.
  assert (A : Forall (fun x => x = n) (arg_lens args)).
  { clear X. induction F; simpl; auto. destruct x; simpl in *; auto. }
  assert (B : arg_lens args <> []).
  { clear F A. induction X; simpl; destruct x; simpl in *; try tauto; try discriminate. }
  destruct (arg_lens args) eqn:El; [tauto|]. now apply list_max_const.
Qed.

Lemma expand_length n a : fits n a -> length (expand n a) = n.
Proof. destruct a; simpl; auto. intros; apply repeat_length. Qed.

Lemma build_rect n h k l e temp det mon tim :
  Forall (fits n) [h; k; l; e; temp; det; mon; tim] ->
  Exists is_array [h; k; l; e; temp; det; mon; tim] ->
  rectangular n (build h k l e temp det mon tim) /\ standard (build h k l e temp det mon tim).
Proof.
  intros F X. unfold build. rewrite (n_dim_spec n); auto. split; [|reflexivity].
  unfold rectangular. repeat match goal with H : Forall _ (_ :: _) |- _ => inversion H; subst; clear H end.
  repeat constructor; cbn [snd]; now apply expand_length.
Qed.

Lemma build_scalars_rect h k l e temp det mon tim :
  Forall (fun a => ~ is_array a) [h; k; l; e; temp; det; mon; tim] ->
  rectangular 1 (build h k l e temp det mon tim).
Proof.
  intros F. repeat match goal with H : Forall _ (_ :: _) |- _ => inversion H; subst; clear H end.
  destruct h, k, l, e, temp, det, mon, tim; simpl in *; try tauto.
  repeat constructor.
Qed.

Lemma build_Q_rect Q det mon tim :
  rectangular (length Q) (build_Q Q det mon tim) <->
  Forall (fun a => match a with ANum _ => length Q = 5%nat | AArr l => length l = length Q end) [det; mon; tim].
Proof.
  unfold rectangular, build_Q.
  assert (E : forall a, length (expand 5 a) = length Q <-> match a with ANum _ => length Q = 5%nat | AArr l => length l = length Q end).
  { intros [q|l]; simpl; [|tauto]. split; auto. }
  split; intros F.
  - repeat match goal with H : Forall _ (_ :: _) |- _ => inversion H; subst; clear H end.
    repeat constructor; apply E; assumption.
  - repeat match goal with H : Forall _ (_ :: _) |- _ => inversion H; subst; clear H end.
    repeat constructor; cbn [snd]; try apply map_length; apply E; assumption.
Qed.

(** ** Setters *)
Lemma cset_keys c k v : In k (map fst c) -> map fst (cset c k v) = map fst c.
Proof.
  induction c as [|[k' v'] c IH]; simpl; [tauto|]. intros H.
  destruct (String.eqb_spec k' k); simpl; subst; auto. f_equal. apply IH. destruct H; [subst; tauto|auto].
Qed.
Lemma cset_rect n c k v : rectangular n c -> length v = n -> rectangular n (cset c k v).
Proof.
  unfold rectangular. induction 1; simpl; intros.
  - constructor; auto.
  - destruct x as [k' v']. destruct (String.eqb k' k); constructor; auto.
Qed.
Lemma cget_cset_same c k v : cget (cset c k v) k = Some v.
Proof.
  induction c as [|[k' v'] c IH]; simpl; [now rewrite String.eqb_refl|].
  destruct (String.eqb_spec k' k); simpl; [now rewrite String.eqb_refl|].
  destruct (String.eqb_spec k' k); [tauto|auto].
Qed.
Lemma cget_cset_other c k k' v : k <> k' -> cget (cset c k v) k' = cget c k'.
Proof.
  intros N. induction c as [|[a b] c IH]; simpl.
  - destruct (String.eqb_spec k k'); [tauto|auto].
  - destruct (String.eqb_spec a k); simpl; destruct (String.eqb_spec a k'); subst; try congruence; auto; destruct (String.eqb_spec k k'); congruence.
Qed.
Lemma cget_rect n c k v : rectangular n c -> cget c k = Some v -> length v = n.
Proof.
  unfold rectangular. induction 1; simpl; [discriminate|]. destruct x as [a b].
  destruct (String.eqb a k); auto. intros E; inversion E; subst; auto.
Qed.

Lemma set_coord_spec n c k v : rectangular n c -> In "detector" (map fst c) -> k <> "detector" ->
  match set_coord c k v with
  | Ok c' => rectangular n c' /\ (forall k', k' <> k -> cget c' k' = cget c k') /\
             (match v with SNum q => cget c' k = Some (repeat q n)
                         | SArr l => length l = n /\ cget c' k = Some l | SList _ => False end)
  | Err e => match v with SNum _ => False | SArr l => e = ValueError /\ length l <> n
                        | SList _ => e = AttributeError end
  end.
Proof.
  intros R I Nk. unfold set_coord.
  assert (exists det, cget c "detector" = Some det) as [det E].
  { clear - I. induction c as [|[a b] c IH]; simpl in *; [tauto|].
    destruct (String.eqb_spec a "detector"); eauto. destruct I; [tauto|auto]. }
  rewrite E. assert (L := cget_rect _ _ _ _ R E). rewrite L.
  destruct v as [q|l|l]; auto.
  - split; [apply cset_rect; auto; apply repeat_length|]. split.
    + intros; now apply cget_cset_other; auto.
    + apply cget_cset_same.
  - destruct (Nat.eqb_spec (length l) n); auto. split; [now apply cset_rect|]. split.
    + intros; now apply cget_cset_other; auto.
    + split; auto. apply cget_cset_same.
Qed.

Definition only_coords (a : assign) : Prop := match a with SetCoord k _ => k <> "detector" | SetCounts _ _ => False end.

Lemma assigns_rect n l : forall c, rectangular n c -> In "detector" (map fst c) ->
  Forall only_coords l -> rectangular n (run_assigns c l).
Proof.
  unfold run_assigns. induction l as [|a l IH]; intros c R I F; simpl; auto.
  inversion F; subst. apply IH; auto; destruct a as [k v|k v]; simpl in *; try tauto.
  - assert (S := set_coord_spec n c k v R I H1). destruct (set_coord c k v); tauto.
  - unfold set_coord. destruct (cget c "detector"); auto.
    assert (G : forall w, In "detector" (map fst (cset c k w))).
    { intros w. clear - I. induction c as [|[a b] c IHc]; simpl in *; [tauto|].
      destruct (String.eqb_spec a k); simpl; [subst; destruct I; auto|]. destruct I; auto. }
    destruct v; auto. destruct (Nat.eqb _ _); auto.
Qed.

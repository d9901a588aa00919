(** C40 and C41: what an instrument remembers between calls of calc_resolution and get_resolution. *)
From Coq Require Import String List ZArith Reals Lra Lia Psatz Bool.
From Verif Require Import Base MatInv TasModel TasProof TasCase TasProps LinAlg LatticeModel LatticeProof LatticeProps SysModel SysProps ToolsModel HistModel.
Import ListNotations.
Local Open Scope R_scope.

(** * Points and components *)
Lemma all_some_map {A} (l : list A) : all_some (map Some l) = Some l.
Proof. induction l as [|a l IH]; simpl; auto. now rewrite IH. Qed.
(** The components (a, b) of the direction of Q: a along u, b across it, towards v. *)
Definition direction (s : lattice) (u v Q : v3) (a b : R) : Prop :=
  form (Gstar s) u Q = get_q s u * get_q s Q * a /\
  (exists al be, 0 < be /\ form (Gstar s) u v = get_q s u * al /\ form (Gstar s) v v = al ^ 2 + be ^ 2 /\ form (Gstar s) v Q = get_q s Q * (al * a + be * b)) /\
  a ^ 2 + b ^ 2 <= 1 /\ (a ^ 2 + b ^ 2 = 1 <-> dot Q (cross u v) = 0).
Lemma direction_ok s u v Q : cell s -> ~ collinear u v -> Q <> V 0 0 0 -> exists a b, in_system s u v Q = Ok (Some (get_q s Q, a, b)) /\ direction s u v Q a b.
Proof.
  intros C N NQ. destruct (C43_components s u v Q C N NQ) as (q & a & b & E & Eq & P1 & P2 & _). subst q. exists a, b. split; auto.
  assert (S := sys_spec s C u v). unfold in_system in E. destruct (standard_system s u v) as [[[[x y] z]|]|e]; cbn [bind] in E; try discriminate.
  destruct S as (_ & (Oxx & Oyy & Ozz & Oxy & Oxz & Oyz) & _ & Eu & [al [be [Pb Ev]]]).
  destruct (C43_star s C) as (_ & _ & _ & Hs & Hm). rewrite Hm in E by auto. destruct (C22_q_times_d s Q C NQ) as (_ & Qp & _ & Q2). destruct (Req_EM_T (get_q s Q) 0); [discriminate|]. injection E as Ea Eb. rewrite !Hs in Ea, Eb.
  assert (Nu : u <> V 0 0 0). { intros ->. apply N. unfold collinear. apply v3_eq; simpl; ring. }
  assert (Gu : get_q s u = sqrt (form (Gstar s) u u)). { destruct (C22_q_times_d s u C Nu) as (_ & Up & _ & U2). rewrite <- U2, <- Rsqr_pow2. symmetry. apply sqrt_Rsqr. lra. }
  set (q := get_q s Q) in *. set (m := Gstar s) in *. assert (EQ : V (vx Q / q) (vy Q / q) (vz Q / q) = vscal (/ q) Q) by (apply v3_eq; simpl; unfold Rdiv; ring). rewrite EQ in Ea, Eb. unfold m in Ea, Eb. rewrite fscal_r in Ea, Eb. fold m in Ea, Eb.
  assert (Xa : form m x Q = q * a) by (rewrite <- Ea; field; auto). assert (Xb : form m y Q = q * b) by (rewrite <- Eb; field; auto). rewrite <- Gu in Eu.
  assert (Add : forall c, form m (vadd (vscal al x) (vscal be y)) c = al * form m x c + be * form m y c) by (intros c; clear; clearbody m; unfold form, dot; simpl; ring).
  assert (Oyx : form m y x = 0) by (rewrite <- Oxy; unfold m; now apply sys_sym).
  unfold direction. fold q m. split; [|split; [|split; auto]].
  - rewrite Eu at 1. unfold m. rewrite fscal_l. fold m. rewrite Xa. ring.
  - exists al, be. split; auto. split; [|split].
    + rewrite Eu at 1. unfold m. rewrite fscal_l. fold m. unfold m. rewrite sys_sym by auto. fold m. rewrite Ev, Add, Oxx, Oyx. ring.
    + rewrite Ev. rewrite Add. unfold m. rewrite (sys_sym s C x), (sys_sym s C y). fold m. rewrite !Add, Oxx, Oyy, Oxy, Oyx. ring.
    + rewrite Ev. rewrite Add, Xa, Xb. ring.
Qed.
Definition q_points (s : lattice) (l : list (v3 * R)) : list (R * R) := map (fun p => (get_q s (fst p), snd p)) l.
Lemma comps s u v l : cell s -> ~ collinear u v -> Forall (fun p => fst p <> V 0 0 0) l ->
  exists cs, map_res (fun p : v3 * R => in_system s u v (fst p)) l = Ok (map Some cs) /\ Forall2 (fun p c => exists a b, c = (get_q s (fst p), a, b) /\ direction s u v (fst p) a b) l cs /\
  combine (map (fun c : R * R * R => fst (fst c)) cs) (map snd l) = q_points s l.
Proof.
  intros C N. induction 1 as [|[Q w] l NQ F IH]; simpl; [exists []; repeat split; constructor|]. destruct (direction_ok s u v Q C N NQ) as (a & b & E & D). simpl in *. rewrite E. destruct IH as (cs & -> & F2 & Ec).
  exists ((get_q s Q, a, b) :: cs). split; [reflexivity|]. split; [constructor; eauto|]. simpl. now rewrite Ec.
Qed.
Lemma system_ok s u v : cell s -> ~ collinear u v -> exists o, standard_system s u v = Ok o.
Proof. intros C N. destruct (C43_axes s u v C N) as (x & y & z & E & _). eauto. Qed.
Lemma with_shape_id t : with_shape t (s_shape t) = t.
Proof. destruct t; reflexivity. Qed.
(** The call, when the axes and the components are there and the sample has no shape. *)
Lemma calc_plain I q h : cell (i_lat I) -> ~ collinear (i_o1 I) (i_o2 I) -> clean q = Ok h -> Forall (fun p => fst p <> V 0 0 0) (points_of h) -> s_shape (i_tas I) = None ->
  exists cs, Forall2 (fun p c => exists a b, c = (get_q (i_lat I) (fst p), a, b) /\ direction (i_lat I) (i_o1 I) (i_o2 I) (fst p) a b) (points_of h) cs /\
  calc_resolution I q = match calc_in_Q (i_tas I) (q_points (i_lat I) (points_of h)) with
                        | Err e => Some (set_last I h, Err e)
                        | Ok rs => Some (set_res (set_last I h) (map (fun '(c, o) => finish (i_smooth I) c o) (combine cs rs)), Ok tt)
                        end.
Proof.
  intros C N E F S. destruct (comps _ _ _ _ C N F) as (cs & E1 & F2 & E2). destruct (system_ok _ _ _ C N) as [o E3]. exists cs. split; auto.
  unfold calc_resolution. rewrite E. cbn [set_last i_lat i_o1 i_o2 i_tas]. rewrite E3, E1, all_some_map, S. cbn [turn_shape]. cbn [set_tas i_tas i_smooth i_lat i_o1 i_o2 i_last i_res]. assert (W := with_shape_id (i_tas I)). rewrite S in W. rewrite W, E2. reflexivity.
Qed.
(** * The matrix in the system of the sample *)
Lemma T_form a b c A y : qf 4 (mul 4 (tr (tmat (c, a, b))) (mul 4 A (tmat (c, a, b)))) y = qf 4 A (fun i => nth i [a * y 0%nat + b * y 1%nat; - b * y 0%nat + a * y 1%nat; y 2%nat; y 3%nat] 0).
Proof.
  change (mul 4 A (tmat (c, a, b))) with (mul 4 A (tr (tr (tmat (c, a, b))))). rewrite qf_congr. apply qf_ext; [apply eqm_refl|]. intros i L. unfold mulv, tr, tmat, mx.
  do 4 (destruct i as [|i]; [cbn [sum nth]; ring|]). lia.
Qed.
Lemma T_rank a b c : a ^ 2 + b ^ 2 <> 0 -> full_rank 4 4 (tr (tmat (c, a, b))).
Proof.
  intros N x H. assert (H0 := H 0%nat ltac:(lia)). assert (H1 := H 1%nat ltac:(lia)). assert (H2 := H 2%nat ltac:(lia)). assert (H3 := H 3%nat ltac:(lia)). unfold mulv, tr, tmat, mx in H0, H1, H2, H3. cbn [sum nth] in H0, H1, H2, H3.
  assert (X0 : (a ^ 2 + b ^ 2) * x 0%nat = 0) by (transitivity (a * (a * x 0%nat + b * x 1%nat) - b * (- b * x 0%nat + a * x 1%nat)); [ring|]; replace (a * x 0%nat + b * x 1%nat) with 0 by lra; replace (- b * x 0%nat + a * x 1%nat) with 0 by lra; ring).
  assert (X1 : (a ^ 2 + b ^ 2) * x 1%nat = 0) by (transitivity (b * (a * x 0%nat + b * x 1%nat) + a * (- b * x 0%nat + a * x 1%nat)); [ring|]; replace (a * x 0%nat + b * x 1%nat) with 0 by lra; replace (- b * x 0%nat + a * x 1%nat) with 0 by lra; ring).
  intros i L. do 4 (destruct i as [|i]; [first [lra|apply Rmult_integral in X0; tauto|apply Rmult_integral in X1; tauto]|]). lia.
Qed.
Lemma combine_F2 {A B C D} (P : A -> B -> Prop) (Q : A -> C -> Prop) (f : B * C -> D) (S : A -> D -> Prop) (l : list A) (l1 : list B) (l2 : list C) :
  (forall a b c, P a b -> Q a c -> S a (f (b, c))) -> Forall2 P l l1 -> Forall2 Q l l2 -> Forall2 S l (map f (combine l1 l2)).
Proof. intros H F. revert l2. induction F as [|a b l l1 Pa F IH]; intros l2 G; inversion G; subst; simpl; constructor; auto. Qed.
Lemma F2_map {A B C} (g : A -> B) (P : B -> C -> Prop) l l' : Forall2 P (map g l) l' -> Forall2 (fun a c => P (g a) c) l l'.
Proof. revert l'. induction l as [|a l IH]; intros l' H; inversion H; subst; constructor; auto. Qed.
(** A call at points that the spectrometer reaches stores, for each of them in order, a positive prefactor and two matrices: RM,
    positive definite, in the frame of Q (along, across, up, energy), and RMS, the same quadratic form of a displacement given
    along the axes of the sample instead: (a, b) is the direction of Q.  RMS is positive definite unless Q is perpendicular to
    the plane of orient1 and orient2. *)
Theorem C40_axes I q h : cell (i_lat I) -> ~ collinear (i_o1 I) (i_o2 I) -> clean q = Ok h -> Forall (fun p => fst p <> V 0 0 0) (points_of h) ->
  s_shape (i_tas I) = None -> i_smooth I = None -> usable (i_tas I) (List.length (points_of h)) ->
  Forall (fun p => reachable (i_tas I) (get_q (i_lat I) (fst p), snd p)) (points_of h) ->
  exists J outs, calc_resolution I q = Some (J, Ok tt) /\ i_last J = Some h /\ i_res J = Some outs /\
  Forall2 (fun p o => exists r RMS RM a b, o = mkO (Some r) (finite RMS) (finite RM) /\ 0 < r /\ posdef 4 RM /\ direction (i_lat I) (i_o1 I) (i_o2 I) (fst p) a b /\
    (forall y, qf 4 RMS y = qf 4 RM (fun i => nth i [a * y 0%nat + b * y 1%nat; - b * y 0%nat + a * y 1%nat; y 2%nat; y 3%nat] 0)) /\ symm 4 RMS /\
    (a ^ 2 + b ^ 2 <> 0 -> posdef 4 RMS)) (points_of h) outs.
Proof.
  intros C N E F S Sm U Re. destruct (calc_plain I q h C N E F S) as (cs & F2 & Ec).
  assert (Fr : Forall (reachable (i_tas I)) (q_points (i_lat I) (points_of h))) by (unfold q_points; now apply Forall_map).
  assert (L : List.length (q_points (i_lat I) (points_of h)) = List.length (points_of h)) by apply map_length.
  destruct (C42_positive (i_tas I) (q_points (i_lat I) (points_of h)) ltac:(now rewrite L) Fr) as (rs & Er & Frs). rewrite Er in Ec. eexists _, _. split; [exact Ec|]. split; [reflexivity|]. split; [reflexivity|].
  apply F2_map in Frs. eapply combine_F2; [|exact F2|exact Frs]. intros p c o (a & b & -> & D) (r & RM & -> & Rp & PM). cbn [fst snd] in *. unfold finish. rewrite Sm.
  eexists _, _, _, a, b. split; [reflexivity|]. split; auto. split; auto. split; auto. split; [intros y; apply T_form|]. split.
  - apply (symm_congr 4 4 (tr (tmat (get_q (i_lat I) (fst p), a, b)))). apply PM.
  - intros Nz. apply (posdef_congr 4 4 (tr (tmat (get_q (i_lat I) (fst p), a, b)))); auto. now apply T_rank.
Qed.
Print Assumptions C40_axes.
(** A cubic cell whose reciprocal axes have length 1, with orient1, orient2 along the first two. *)
Definition unit_cell : lattice := mkL (2 * PI) (2 * PI) (2 * PI) 90 90 90.
Lemma unit_cell_ok : cell unit_cell.
Proof. assert (P := PI_RGT_0). unfold cell, unit_cell; simpl. rewrite rad90, cos_PI2. repeat split; lra. Qed.
Lemma unit_Gstar : Gstar unit_cell = mI.
Proof.
  assert (P := PI_RGT_0). rewrite <- (C21_Bmatrix_right_angles unit_cell unit_cell_ok eq_refl (or_introl eq_refl)).
  destruct (cell_facts unit_cell unit_cell_ok) as (ca & cb & cg & sa & sb & sg & r & F). rewrite (Bmatrix_eq unit_cell _ _ _ _ _ _ _ F). destruct (alphastar_cs unit_cell _ _ _ _ _ _ _ F) as [_ S]. rewrite S.
  destruct F as [Eca Ecb Ecg Esa Esb Esg Psa Psb Psg Pr Qa Qb Qg Qr La Lb Lc]. unfold unit_cell in *; simpl alpha in *; simpl beta in *; simpl gamma in *.
  rewrite rad90, ?cos_PI2, ?sin_PI2 in *. subst ca cb cg sa sb sg. assert (r = 1) by nra. subst r. unfold bc. apply m3_eq; simpl; field; lra.
Qed.
Lemma unit_form v w : form (Gstar unit_cell) v w = dot v w.
Proof. rewrite unit_Gstar. unfold form, dot; simpl. ring. Qed.
Lemma unit_q Q k : 0 < k -> dot Q Q = k * k -> get_q unit_cell Q = k.
Proof.
  intros K E. assert (N : Q <> V 0 0 0) by (intros ->; unfold dot in E; simpl in E; nra). destruct (C22_q_times_d unit_cell Q unit_cell_ok N) as (_ & P & _ & Q2). rewrite unit_form, E in Q2. nra.
Qed.
Lemma axes_ok : ~ collinear (V 1 0 0) (V 0 1 0).
Proof. unfold collinear. intros E. injection E. intros. simpl in *. lra. Qed.
Lemma unit_direction Q k a b : 0 < k -> dot Q Q = k * k -> direction unit_cell (V 1 0 0) (V 0 1 0) Q a b -> vx Q = k * a /\ vy Q = k * b.
Proof.
  intros K E (H1 & (al & be & P & H2 & H3 & H4) & _). rewrite !unit_form in *. rewrite (unit_q Q k K E) in *. assert (U : get_q unit_cell (V 1 0 0) = 1) by (apply unit_q; [lra|]; unfold dot; simpl; ring). rewrite U in *.
  unfold dot in *; simpl in *. assert (al = 0) by lra. subst al. assert (be = 1) by nra. subst be. split; lra.
Qed.
(** The instrument of TasCase with this sample. *)
Definition ex_inst (t : tas) : inst := mkInst t unit_cell (V 1 0 0) (V 0 1 0) None None None.
Definition at_hkl (h k l w : R) : query := mkQ (Scalar h) (Scalar k) (Scalar l) (Scalar w).
Lemma clean_scalar h k l w : clean (at_hkl h k l w) = Ok (mkH [h] [k] [l] [w]).
Proof. reflexivity. Qed.
Lemma clean_many h k l w : List.length k = List.length h -> List.length l = List.length h -> List.length w = List.length h -> clean (mkQ (Many h) (Many k) (Many l) (Many w)) = Ok (mkH h k l w).
Proof.
  intros A B C. unfold clean, clean_args. cbn [q_H q_K q_L q_W map to_list longest fold_right]. rewrite A, B, C, Nat.max_0_r, !Nat.max_id. cbn [bind map_res]. unfold pad. rewrite A, B, C, Nat.ltb_irrefl. reflexivity.
Qed.
Example C40_axes_ex : let I := ex_inst (case 1 None None (Some 10) None) in let q := mkQ (Many [3; 0]) (Many [0; 3]) (Scalar 0) (Scalar 0) in exists h,
  cell (i_lat I) /\ ~ collinear (i_o1 I) (i_o2 I) /\ clean q = Ok h /\ Forall (fun p => fst p <> V 0 0 0) (points_of h) /\ usable (i_tas I) (List.length (points_of h)) /\
  Forall (fun p => reachable (i_tas I) (get_q (i_lat I) (fst p), snd p)) (points_of h) /\ List.length (points_of h) = 2%nat.
Proof.
  intros I q. exists (mkH [3; 0] [0; 3] [0; 0] [0; 0]). split; [exact unit_cell_ok|]. split; [exact axes_ok|]. split; [reflexivity|]. cbn [points_of zip4 h_H h_K h_L h_W].
  split; [repeat constructor; cbn [fst]; intros E; injection E; intros; lra|]. split; [apply case_usable; auto; lra|]. split; [|reflexivity].
  assert (R0 : reachable (case 1 None None (Some 10) None) (3, 0)). { replace 0 with (2072 / 1000 * (3 * 3 - 9)) by field. apply case_reach; [lra|]. rewrite Rabs_pos_eq by lra. lra. }
  apply Forall_cons; [|apply Forall_cons; [|apply Forall_nil]]; cbn [fst snd I ex_inst i_lat i_tas]; (rewrite (unit_q _ 3); [exact R0|lra|unfold dot; simpl; ring]).
Qed.

(** * No history without a shape *)
(** A number of calls, one after the other; their exceptions are caught. *)
Fixpoint calls (I : inst) (l : list query) : option inst :=
  match l with
  | [] => Some I
  | q :: r => match calc_resolution I q with Some (J, _) => calls J r | None => None end
  end.
Definition same_setup (I J : inst) : Prop := i_tas I = i_tas J /\ i_lat I = i_lat J /\ i_o1 I = i_o1 J /\ i_o2 I = i_o2 J /\ i_smooth I = i_smooth J.
Lemma calc_setup I q J r : s_shape (i_tas I) = None -> calc_resolution I q = Some (J, r) -> same_setup I J.
Proof.
  intros S. unfold calc_resolution. destruct (clean q) as [h|e]; [|intros E; injection E as <- _; repeat split]. cbn [set_last i_lat i_o1 i_o2 i_tas].
  destruct (standard_system _ _ _); [|intros E; injection E as <- _; repeat split]. destruct (map_res _ _) as [ocs|e]; [|intros E; injection E as <- _; repeat split]. destruct (all_some ocs) as [cs|]; [|discriminate].
  rewrite S. cbn [turn_shape]. assert (W := with_shape_id (i_tas I)). rewrite S in W. rewrite W.
  destruct (calc_in_Q _ _); intros E; injection E as <- _; repeat split.
Qed.
Lemma calc_same I J q : same_setup I J -> match calc_resolution I q, calc_resolution J q with
  | Some (I', r), Some (J', r') => r = r' /\ same_setup I' J' /\ (r = Ok tt -> I' = J')
  | None, None => True
  | _, _ => False
  end.
Proof.
  destruct I as [t s u v sm la rs], J as [t' s' u' v' sm' la' rs']. intros (A & B & C & D & E). cbn [i_tas i_lat i_o1 i_o2 i_smooth] in *. subst t' s' u' v' sm'. unfold calc_resolution. cbn [set_last set_tas set_res i_tas i_lat i_o1 i_o2 i_smooth i_last i_res].
  destruct (clean q) as [h|e]; [|repeat split; discriminate]. destruct (standard_system _ _ _); [|repeat split; discriminate]. destruct (map_res _ _) as [ocs|e]; [|repeat split; discriminate]. destruct (all_some ocs) as [cs|]; auto.
  destruct (turn_shape _ _); [|repeat split; discriminate]. cbn [set_tas i_tas i_lat i_o1 i_o2 i_smooth i_last i_res]. destruct (calc_in_Q _ _); [|repeat split; discriminate]. repeat split.
Qed.
(** Unless the sample has a shape, what a call gives does not depend on the calls before, and the calls change nothing else. *)
Theorem C40_no_history I l J q : s_shape (i_tas I) = None -> calls I l = Some J -> same_setup I J /\
  match calc_resolution I q, calc_resolution J q with
  | Some (I', r), Some (J', r') => r = r' /\ (r = Ok tt -> i_res I' = i_res J' /\ i_last I' = i_last J')
  | None, None => True
  | _, _ => False
  end.
Proof.
  intros S E. assert (X : same_setup I J).
  { revert I S E. induction l as [|p l IH]; intros I S E; simpl in E; [injection E as ->; repeat split|]. destruct (calc_resolution I p) as [[K r]|] eqn:Ec; [|discriminate].
    assert (Y := calc_setup I p K r S Ec). assert (Z : same_setup K J) by (apply IH; auto; destruct Y as (<- & _); auto). destruct Y as (Y1 & Y2 & Y3 & Y4 & Y5), Z as (Z1 & Z2 & Z3 & Z4 & Z5). repeat split; congruence. }
  split; auto. assert (Y := calc_same I J q X). destruct (calc_resolution I q) as [[I' r]|], (calc_resolution J q) as [[J' r']|]; auto. destruct Y as (-> & _ & Y). split; auto. intros K. rewrite (Y K). auto.
Qed.
Print Assumptions C40_no_history.

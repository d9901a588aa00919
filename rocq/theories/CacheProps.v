(** C40, C41: the shape of the sample, and results kept by get_resolution. *)
From Coq Require Import String List ZArith Reals Lra Lia Psatz Bool.
From Verif Require Import Base MatInv TasModel TasProof TasCase TasProps LinAlg LatticeModel LatticeProof LatticeProps SysModel SysProps ToolsModel HistModel StateProps.
Import ListNotations.
Local Open Scope R_scope.

(** * The shape of the sample *)
Lemma calc_gen I q h : cell (i_lat I) -> ~ collinear (i_o1 I) (i_o2 I) -> clean q = Ok h -> Forall (fun p => fst p <> V 0 0 0) (points_of h) ->
  exists cs, Forall2 (fun p c => exists a b, c = (get_q (i_lat I) (fst p), a, b) /\ direction (i_lat I) (i_o1 I) (i_o2 I) (fst p) a b) (points_of h) cs /\
  calc_resolution I q = match turn_shape (s_shape (i_tas I)) cs with
                        | Err e => Some (set_last I h, Err e)
                        | Ok s => let J := set_tas (set_last I h) (with_shape (i_tas I) s) in
                                  match calc_in_Q (with_shape (i_tas I) s) (q_points (i_lat I) (points_of h)) with
                                  | Err e => Some (J, Err e)
                                  | Ok rs => Some (set_res J (map (fun '(c, o) => finish (i_smooth I) c o) (combine cs rs)), Ok tt)
                                  end
                        end.
Proof.
  intros C N E F. destruct (comps _ _ _ _ C N F) as (cs & E1 & F2 & E2). destruct (system_ok _ _ _ C N) as [o E3]. exists cs. split; auto.
  unfold calc_resolution. rewrite E. cbn [set_last i_lat i_o1 i_o2 i_tas]. rewrite E3, E1, all_some_map. destruct (turn_shape _ cs); auto. cbn [set_tas i_tas i_smooth i_lat i_o1 i_o2 i_last i_res]. rewrite E2. reflexivity.
Qed.
Lemma turned_form q a b m x : qf 3 (turned (q, a, b) m) x = qf 3 m (fun i => nth i [a * x 0%nat - b * x 1%nat; b * x 0%nat + a * x 1%nat; x 2%nat] 0).
Proof.
  unfold turned. rewrite (qf_ext 3 _ (mul 3 (rot3 (q, a, b)) (mul 3 m (tr (rot3 (q, a, b))))) x x) by (try apply mul_assoc; auto). rewrite qf_congr. apply qf_ext; [apply eqm_refl|]. intros i L. unfold mulv, tr, rot3, mx.
  do 3 (destruct i as [|i]; [cbn [sum nth]; ring|]). lia.
Qed.
(** One 3x3 array. *)
Definition one_shape (s : option shape) (m : mat) : Prop := s = Some (S2 m) \/ s = Some (S3 [m]).
(** Turned back by the direction (a, b), n times. *)
Fixpoint back (a b : R) (n : nat) (x : vec) : vec :=
  match n with O => x | S k => back a b k (fun i => nth i [a * x 0%nat - b * x 1%nat; b * x 0%nat + a * x 1%nat; x 2%nat] 0) end.
Lemma back_ext a b n : forall x y, (forall i, (i < 3)%nat -> x i = y i) -> forall i, (i < 3)%nat -> back a b n x i = back a b n y i.
Proof. induction n as [|n IH]; intros x y H i L; cbn [back]; auto. apply IH; auto. intros j Lj. now rewrite !H by lia. Qed.
Lemma qf_shift3 m x y : (forall i, (i < 3)%nat -> x i = y i) -> qf 3 m x = qf 3 m y.
Proof. intros. apply qf_ext; auto. apply eqm_refl. Qed.
Lemma back_last a b n x i : (i < 3)%nat -> back a b (S n) x i = nth i [a * back a b n x 0%nat - b * back a b n x 1%nat; b * back a b n x 0%nat + a * back a b n x 1%nat; back a b n x 2%nat] 0.
Proof. revert x i. induction n as [|n IH]; intros x i L; [reflexivity|]. exact (IH (fun j => nth j [a * x 0%nat - b * x 1%nat; b * x 0%nat + a * x 1%nat; x 2%nat] 0) i L). Qed.
Lemma direction_unique s u v Q a b a' b' : cell s -> ~ collinear u v -> Q <> V 0 0 0 -> direction s u v Q a b -> direction s u v Q a' b' -> a' = a /\ b' = b.
Proof.
  intros C N Q0 D D1. destruct (C22_q_times_d _ _ C Q0) as (_ & Qp & _ & _). destruct D as (A1 & (al & be & P1 & A2 & A3 & A4) & _), D1 as (B1 & (al' & be' & P1' & B2 & B3 & B4) & _).
  assert (Nu : u <> V 0 0 0). { intros X. apply N. rewrite X. unfold collinear. apply v3_eq; simpl; ring. } destruct (C22_q_times_d _ _ C Nu) as (_ & Up & _ & _).
  set (gu := get_q s u) in *. set (gq := get_q s Q) in *.
  assert (a' = a) by (apply Rmult_eq_reg_l with (gu * gq); [lra|]; apply Rmult_integral_contrapositive_currified; lra). subst a'. split; auto.
  assert (al' = al) by (apply Rmult_eq_reg_l with gu; lra). subst al'. assert (be' = be) by nra. subst be'. assert (al * a + be * b' = al * a + be * b) by (apply Rmult_eq_reg_l with gq; lra). apply Rmult_eq_reg_l with be; lra.
Qed.
(** With a shape, every call at one point turns the shape of the sample once more, whether it succeeds or not: after n calls at the
    same point the shape attribute has been turned n times by the direction of Q in the scattering plane. *)
Theorem C40_shape_turns I h k l w m n J : cell (i_lat I) -> ~ collinear (i_o1 I) (i_o2 I) -> V h k l <> V 0 0 0 -> one_shape (s_shape (i_tas I)) m -> (0 < n)%nat ->
  calls I (repeat (at_hkl h k l w) n) = Some J ->
  exists a b m', direction (i_lat I) (i_o1 I) (i_o2 I) (V h k l) a b /\ s_shape (i_tas J) = Some (S3 [m']) /\ forall x, qf 3 m' x = qf 3 m (back a b n x).
Proof.
  intros C N Q. assert (D := direction_ok _ _ _ _ C N Q). destruct D as (a & b & Es & D). revert I m C N Es D. induction n as [|n IH]; intros I m C N Es D Sh L E; [lia|]. cbn [repeat calls] in E.
  assert (F : Forall (fun p : v3 * R => fst p <> V 0 0 0) (points_of (mkH [h] [k] [l] [w]))) by (repeat constructor; auto).
  destruct (calc_gen I (at_hkl h k l w) _ C N (clean_scalar h k l w) F) as (cs & F2 & Ec). inversion F2 as [|p c x1 cs' (a' & b' & -> & D') F0]; subst. inversion F0; subst. clear F2 F0. cbn [fst] in *.
  assert (Ecs : exists K, calc_resolution I (at_hkl h k l w) = Some K /\ same_setup I (set_tas (fst K) (i_tas I)) /\ s_shape (i_tas (fst K)) = Some (S3 [turned (get_q (i_lat I) (V h k l), a', b') m])).
  { destruct Sh as [Sh|Sh]; rewrite Sh in Ec; cbn [turn_shape map] in Ec; destruct (calc_in_Q _ _); eexists; (split; [exact Ec|]); repeat split. }
  destruct Ecs as ([K r] & EK & (_ & S2 & S3 & S4 & _) & SK). cbn [fst set_tas i_lat i_o1 i_o2] in *. rewrite EK in E.
  assert (Eab : a' = a /\ b' = b) by exact (direction_unique _ _ _ _ _ _ _ _ C N Q D D').
  destruct Eab as [-> ->]. destruct n as [|n].
  - cbn [repeat calls] in E. injection E as <-. exists a, b, (turned (get_q (i_lat I) (V h k l), a, b) m). split; auto. split; auto. intros x. apply turned_form.
  - rewrite S2, S3, S4 in *. destruct (IH K (turned (get_q (i_lat K) (V h k l), a, b) m) C N Es D ltac:(right; exact SK) ltac:(lia) E) as (a1 & b1 & m' & D1 & S' & H).
    assert (Eab : a1 = a /\ b1 = b) by exact (direction_unique _ _ _ _ _ _ _ _ C N Q D D1).
    destruct Eab as [-> ->]. exists a, b, m'. split; auto. split; auto. intros x. rewrite H, turned_form. apply qf_shift3. intros i L'. symmetry. apply (back_last a b (S n) x i L').
Qed.
Print Assumptions C40_shape_turns.
Lemma three : V 0 3 0 <> V 0 0 0.
Proof. intros E. injection E. lra. Qed.
(** Two calls on the instrument of TasCase with the shape diag(1, 2, 3). *)
Lemma shape_defined n I : cell (i_lat I) -> ~ collinear (i_o1 I) (i_o2 I) -> exists J, calls I (repeat (at_hkl 0 3 0 0) n) = Some J.
Proof.
  revert I. induction n as [|n IH]; intros I C N; cbn [repeat calls]; [eauto|].
  assert (F : Forall (fun p : v3 * R => fst p <> V 0 0 0) (points_of (mkH [0] [3] [0] [0]))) by (repeat constructor; exact three).
  destruct (calc_gen I _ _ C N (clean_scalar 0 3 0 0) F) as (cs & _ & ->). destruct (turn_shape _ cs); [|apply IH; auto]. cbv zeta. destruct (calc_in_Q _ _); apply IH; auto.
Qed.
Example C40_shape_turns_ex : let I := ex_inst (case 1 None None None (Some case_shape)) in
  cell (i_lat I) /\ ~ collinear (i_o1 I) (i_o2 I) /\ V 0 3 0 <> V 0 0 0 /\ one_shape (s_shape (i_tas I)) (diag [1; 2; 3]) /\ exists J, calls I (repeat (at_hkl 0 3 0 0) 5) = Some J.
Proof. intros I. split; [exact unit_cell_ok|]. split; [exact axes_ok|]. split; [exact three|]. split; [left; reflexivity|]. apply shape_defined; [exact unit_cell_ok|exact axes_ok]. Qed.
(** Asking twice for one point does not leave the sample as asking once: its two in-plane extents are exchanged. *)
Theorem C40_shape_repeat_refuted : exists I q J K m m', calls I [q] = Some J /\ calls I [q; q] = Some K /\
  s_shape (i_tas J) = Some (S3 [m]) /\ s_shape (i_tas K) = Some (S3 [m']) /\ m 0%nat 0%nat = 2 /\ m 1%nat 1%nat = 1 /\ m' 0%nat 0%nat = 1 /\ m' 1%nat 1%nat = 2.
Proof.
  set (I := ex_inst (case 1 None None None (Some case_shape))). destruct (shape_defined 1 I unit_cell_ok axes_ok) as [J EJ]. destruct (shape_defined 2 I unit_cell_ok axes_ok) as [K EK].
  destruct (C40_shape_turns I 0 3 0 0 (diag [1; 2; 3]) 1 J unit_cell_ok axes_ok three (or_introl eq_refl) ltac:(lia) EJ) as (a & b & m & D & Sj & Hm).
  destruct (C40_shape_turns I 0 3 0 0 (diag [1; 2; 3]) 2 K unit_cell_ok axes_ok three (or_introl eq_refl) ltac:(lia) EK) as (a' & b' & m' & D' & Sk & Hm').
  destruct (unit_direction (V 0 3 0) 3 a b ltac:(lra) ltac:(unfold dot; simpl; ring) D) as [A B]. destruct (unit_direction (V 0 3 0) 3 a' b' ltac:(lra) ltac:(unfold dot; simpl; ring) D') as [A' B']. cbn [vx vy] in *.
  assert (a = 0) by lra. assert (b = 1) by lra. assert (a' = 0) by lra. assert (b' = 1) by lra. subst a b a' b'.
  assert (E : forall m0 i, (i < 3)%nat -> m0 i i = qf 3 m0 (fun j => if Nat.eqb i j then 1 else 0)).
  { intros m0 i L. unfold qf, mulv. do 3 (destruct i as [|i]; [cbn [sum Nat.eqb]; ring|]). lia. }
  exists I, (at_hkl 0 3 0 0), J, K, m, m'. split; [exact EJ|]. split; [exact EK|]. split; auto. split; auto.
  rewrite !(E m), !(E m') by lia. rewrite !Hm, !Hm'. unfold qf, mulv, diag. cbn [sum nth Nat.eqb back]. repeat split; ring.
Qed.
Print Assumptions C40_shape_repeat_refuted.
(** After a call at two or more points with a shape, every later call raises ValueError. *)
Lemma turn_two s cs s' c d cs' c' cs2 : cs = c :: d :: cs' -> s <> None -> turn_shape s cs = Ok s' -> turn_shape s' (c' :: cs2) = Err ValueError.
Proof.
  intros -> N E. destruct s as [[m|[|m [|m2 l]]]|]; cbn [turn_shape map] in E; try congruence; injection E as <-; reflexivity.
Qed.
Theorem C40_shape_dead I q h J q' h' : cell (i_lat I) -> ~ collinear (i_o1 I) (i_o2 I) -> s_shape (i_tas I) <> None ->
  clean q = Ok h -> Forall (fun p => fst p <> V 0 0 0) (points_of h) -> (2 <= List.length (points_of h))%nat -> calc_resolution I q = Some (J, Ok tt) ->
  clean q' = Ok h' -> Forall (fun p => fst p <> V 0 0 0) (points_of h') -> points_of h' <> [] ->
  exists K, calc_resolution J q' = Some (K, Err ValueError).
Proof.
  intros C N Sh E F L Ec E' F' Ne. destruct (calc_gen I q h C N E F) as (cs & F2 & Eq). rewrite Eq in Ec. clear Eq. destruct (turn_shape (s_shape (i_tas I)) cs) as [s|e] eqn:Et; [|discriminate]. cbv zeta in Ec. destruct (calc_in_Q _ _) as [rs|e]; [|discriminate]. injection Ec as <-.
  match goal with |- context [calc_resolution ?K q'] => destruct (calc_gen K q' h' C N E' F') as (cs2 & F3 & Eq) end. rewrite Eq. cbn [set_res set_tas i_tas i_lat i_o1 i_o2]. unfold with_shape at 1. cbn [s_shape].
  inversion F2 as [E0|p c l1 cs1 _ F4 E1]; [rewrite <- E0 in L; simpl in L; lia|]. inversion F4 as [E2|p2 c2 l2 cs4 _ _ E2]; [rewrite <- E1, <- E2 in L; simpl in L; lia|].
  inversion F3 as [E3|p3 c3 l3 cs3 _ _ E3]; [congruence|]. subst cs cs1 cs2. rewrite (turn_two _ _ s c c2 _ c3 cs3 eq_refl Sh Et). eauto.
Qed.
Print Assumptions C40_shape_dead.
Definition two_points : query := mkQ (Many [3; 0]) (Many [0; 3]) (Scalar 0) (Scalar 0).
Example C40_shape_dead_ex : let I := ex_inst (case 1 None None None (Some case_shape)) in exists h J,
  clean two_points = Ok h /\ Forall (fun p => fst p <> V 0 0 0) (points_of h) /\ (2 <= List.length (points_of h))%nat /\ calc_resolution I two_points = Some (J, Ok tt).
Proof.
  intros I. exists (mkH [3; 0] [0; 3] [0; 0] [0; 0]). assert (F : Forall (fun p : v3 * R => fst p <> V 0 0 0) (points_of (mkH [3; 0] [0; 3] [0; 0] [0; 0]))) by (repeat constructor; cbn [fst]; intros E; injection E; intros; lra).
  destruct (calc_gen I two_points _ unit_cell_ok axes_ok eq_refl F) as (cs & F2 & Eq). cbn [i_tas I ex_inst case s_shape case_shape turn_shape] in Eq. cbv zeta in Eq.
  assert (Cs : exists q1 a1 b1 q2 a2 b2, cs = [(q1, a1, b1); (q2, a2, b2)] /\ a1 ^ 2 + b1 ^ 2 = 1 /\ a2 ^ 2 + b2 ^ 2 = 1).
  { cbn [points_of zip4 h_H h_K h_L h_W] in F2. inversion F2 as [|x1 x2 x3 x4 (a & b & Ea & D) F3 X1 X2]. inversion F3 as [|y1 y2 y3 y4 (a' & b' & Ea' & D') F4 Y1 Y2]. inversion F4. subst. cbn [fst] in *.
    do 6 eexists. split; [reflexivity|]. destruct D as (_ & _ & _ & D), D' as (_ & _ & _ & D'). split; [apply D|apply D']; unfold dot, cross, I, ex_inst; simpl; ring. }
  destruct Cs as (q1 & a1 & b1 & q2 & a2 & b2 & -> & D1 & D2).
  assert (PD : forall q a b, a ^ 2 + b ^ 2 = 1 -> posdef 3 (turned (q, a, b) (diag [1; 2; 3]))).
  { intros q a b D. assert (Sy : symm 3 (diag [1; 2; 3])) by apply (posdef_diag_l 3 [1; 2; 3] eq_refl ltac:(repeat constructor; lra)). split.
    - assert (As : eqm 3 3 (turned (q, a, b) (diag [1; 2; 3])) (mul 3 (rot3 (q, a, b)) (mul 3 (diag [1; 2; 3]) (tr (rot3 (q, a, b)))))) by apply mul_assoc.
      assert (Sc := symm_congr 3 3 (rot3 (q, a, b)) (diag [1; 2; 3]) Sy). intros i j Li Lj. unfold tr at 1. rewrite (As i j Li Lj), (As j i Lj Li). apply Sc; auto.
    - intros x Nz. rewrite turned_form. unfold qf, mulv, diag. cbn [sum nth Nat.eqb]. destruct Nz as (i & Li & Hi).
      assert (G : 0 < (a * x 0%nat - b * x 1%nat) ^ 2 + 2 * (b * x 0%nat + a * x 1%nat) ^ 2 + 3 * x 2%nat ^ 2).
      { assert (T : (a * x 0%nat - b * x 1%nat) ^ 2 + (b * x 0%nat + a * x 1%nat) ^ 2 = x 0%nat ^ 2 + x 1%nat ^ 2) by (transitivity ((a ^ 2 + b ^ 2) * (x 0%nat ^ 2 + x 1%nat ^ 2)); [ring|rewrite D; ring]).
        assert (S0 : 0 <= (b * x 0%nat + a * x 1%nat) ^ 2) by apply pow2_ge_0. assert (0 < x 0%nat ^ 2 + x 1%nat ^ 2 + x 2%nat ^ 2); [|assert (0 <= x 2%nat ^ 2) by apply pow2_ge_0; lra].
        assert (P0 := pow2_ge_0 (x 0%nat)). assert (P1 := pow2_ge_0 (x 1%nat)). assert (P2 := pow2_ge_0 (x 2%nat)). assert (Hp : 0 < x i ^ 2) by (rewrite <- Rsqr_pow2; now apply Rsqr_pos_lt). do 3 (destruct i as [|i]; [lra|]). lia. }
      nra. }
  assert (Us : usable (with_shape (case 1 None None None (Some case_shape)) (Some (S3 [turned (q1, a1, b1) (diag [1; 2; 3]); turned (q2, a2, b2) (diag [1; 2; 3])]))) 2).
  { destruct (case_usable 1 None None None (Some case_shape) 2 ltac:(lra) eq_refl) as (U1 & U2 & U3 & U4 & U5 & U6 & U7 & _ & U9 & U10). repeat (split; [assumption|]). split; [|split; assumption].
    unfold sample_ok, with_shape. cbn [s_shape]. simpl. split; [lia|]. repeat constructor; apply PD; auto. }
  assert (R0 : forall s, reachable (with_shape (case 1 None None None (Some case_shape)) s) (3, 0)). { intros s. assert (X : reachable (case 1 None None None (Some case_shape)) (3, 2072 / 1000 * (3 * 3 - 9))) by (apply case_reach; [lra|]; rewrite Rabs_pos_eq by lra; lra). replace (2072 / 1000 * (3 * 3 - 9)) with 0 in X by field. exact X. }
  match type of Eq with context [calc_in_Q ?t ?l] => destruct (C42_positive t l Us) as (rs & Ers & _) end.
  { cbn [q_points points_of zip4 h_H h_K h_L h_W map fst snd]. apply Forall_cons; [|apply Forall_cons; [|apply Forall_nil]]; cbn [I ex_inst i_lat]; (rewrite (unit_q _ 3); [apply R0|lra|unfold dot; simpl; ring]). }
  cbn [I ex_inst i_lat map] in *. rewrite Ers in Eq. eexists. split; [reflexivity|]. split; [exact F|]. split; [cbn; lia|]. exact Eq.
Qed.
(** The calls before: two points, then one the spectrometer does not reach. *)
Example C40_no_history_ex : let I := ex_inst (case 1 None None None None) in s_shape (i_tas I) = None /\ exists J, calls I [two_points; at_hkl 0 3 0 0] = Some J.
Proof.
  intros I. split; [reflexivity|]. assert (F : Forall (fun p : v3 * R => fst p <> V 0 0 0) (points_of (mkH [3; 0] [0; 3] [0; 0] [0; 0]))) by (repeat constructor; cbn [fst]; intros E; injection E; intros; lra).
  destruct (calc_gen I two_points _ unit_cell_ok axes_ok eq_refl F) as (cs & F2 & Eq). cbn [calls]. rewrite Eq. cbn [i_tas I ex_inst case s_shape turn_shape]. cbv zeta. destruct (calc_in_Q _ _); apply (shape_defined 1); first [exact unit_cell_ok|exact axes_ok].
Qed.

(** * Results kept by get_resolution *)
(** Each of the four arguments is a number or has one entry for each of the [n] points. *)
Definition args (q : query) : list clean_arg := [q_H q; q_K q; q_L q; q_W q].
Definition balanced (q : query) (n : nat) : Prop := Forall (fun a => List.length (to_list a) = 1%nat \/ List.length (to_list a) = n) (args q).
Definition arrays (h : hklw) : list (list R) := [h_H h; h_K h; h_L h; h_W h].
Lemma clean_pad q h : clean q = Ok h -> exists n, Forall2 (fun a l => pad n (to_list a) = Ok l) (args q) (arrays h) /\ Forall (fun a => (List.length (to_list a) <= n)%nat) (args q) /\ Forall (fun l => List.length l = n) (arrays h).
Proof.
  unfold clean, clean_args. cbn [map longest bind]. set (n := fold_right _ _ _). intros E. exists n.
  assert (G : Forall (fun a => (List.length (to_list a) <= n)%nat) (args q)) by (subst n; cbn [map fold_right args]; repeat constructor; lia).
  destruct (pad n (to_list (q_H q))) as [a|] eqn:A; cbn [map_res bind] in E; rewrite A in E; cbn [bind] in E; [|discriminate].
  destruct (pad n (to_list (q_K q))) as [b|] eqn:B; cbn [bind] in E; [|discriminate].
  destruct (pad n (to_list (q_L q))) as [c|] eqn:C; cbn [bind] in E; [|discriminate].
  destruct (pad n (to_list (q_W q))) as [d|] eqn:D; cbn [bind] in E; [|discriminate]. injection E as <-. unfold args, arrays; cbn [h_H h_K h_L h_W].
  split; [repeat constructor; auto|]. split; [exact G|].
  assert (Le : forall l l' : list R, (List.length l <= n)%nat -> pad n l = Ok l' -> List.length l' = n).
  { intros l l' Hl. unfold pad. destruct (Nat.ltb_spec (List.length l) n); [|intros E; injection E as <-; lia]. destruct (List.rev l); [discriminate|]. intros E; injection E as <-. rewrite app_length, repeat_length. lia. }
  unfold args in G. inversion G as [|? ? g1 G1]; subst. inversion G1 as [|? ? g2 G2]; subst. inversion G2 as [|? ? g3 G3]; subst. inversion G3 as [|? ? g4 G4]; subst. apply Forall_cons; [exact (Le _ _ g1 A)|]. apply Forall_cons; [exact (Le _ _ g2 B)|]. apply Forall_cons; [exact (Le _ _ g3 C)|]. apply Forall_cons; [exact (Le _ _ g4 D)|constructor].
Qed.
Lemma all_eq_spec a l n m l' : pad n (to_list a) = Ok l' -> (List.length (to_list a) <= n)%nat -> List.length l' = n -> List.length l = m ->
  (n = m -> all_eq a l = true -> l' = l) /\ (List.length (to_list a) = 1%nat \/ List.length (to_list a) = n -> l = l' -> all_eq a l = true).
Proof.
  intros P Le Ln Lm. unfold all_eq. set (eqb := fun x y : R => if Req_EM_T x y then true else false).
  assert (EQ : forall x y, eqb x y = true <-> x = y) by (intros x y; unfold eqb; destruct (Req_EM_T x y); split; congruence).
  assert (ALL : forall x k, forallb (eqb x) k = true <-> k = repeat x (List.length k)).
  { intros x k. rewrite forallb_forall. split; [intros H; apply Forall_eq_repeat; apply Forall_forall; intros y Iy; now apply EQ, H|intros H y Iy; rewrite H in Iy; apply EQ; symmetry; eapply repeat_spec; eauto]. }
  assert (CMB : forall u v : list R, (Nat.eqb (List.length u) (List.length v) && forallb (fun '(x, y) => eqb x y) (combine u v))%bool = true <-> u = v).
  { induction u as [|x u IH]; intros [|y v]; cbn [List.length Nat.eqb combine forallb andb]; try (split; congruence). specialize (IH v). split.
    - intros H. apply andb_true_iff in H. destruct H as [H1 H2]. apply andb_true_iff in H2. destruct H2 as [H2 H3]. f_equal; [now apply EQ|]. apply IH. now rewrite H1, H3.
    - intros H. injection H as -> ->. rewrite Nat.eqb_refl. cbn [andb]. apply andb_true_iff. split; [now apply EQ|]. destruct IH as [_ IH]. specialize (IH eq_refl). rewrite Nat.eqb_refl in IH. exact IH. }
  unfold pad in P. destruct (to_list a) as [|x [|y k]] eqn:Ea; cbn [List.length] in *.
  - destruct n; [|discriminate]. cbn in P. injection P as <-. cbn in Lm. split; [intros <- _|intros _ ->; reflexivity]. destruct l; [reflexivity|discriminate].
  - assert (E' : l' = repeat x n). { destruct (Nat.ltb_spec 1 n); cbn [List.rev app] in P; injection P as <-; [|assert (n = 1%nat) by lia; subst n; reflexivity]. destruct n as [|n]; [lia|]. cbn [repeat app Nat.sub]. now rewrite Nat.sub_0_r. }
    split; [intros -> H; apply ALL in H; congruence|intros _ ->; apply ALL; congruence].
  - destruct l as [|z [|z' l2]].
    + split; [intros; subst; cbn in *; lia|]. intros _ <-. cbn in Ln. lia.
    + split; [intros; subst; cbn in *; lia|]. intros _ <-. cbn in Ln. lia.
    + split.
      * intros -> H. apply (proj1 (CMB (x :: y :: k) (z :: z' :: l2))) in H. destruct (Nat.ltb_spec (S (S (List.length k))) m); [assert (X : S (S (List.length k)) = List.length (z :: z' :: l2)) by (rewrite <- H; reflexivity); cbn [List.length] in *; lia|]. congruence.
      * intros [D|D] E; [lia|]. apply (proj2 (CMB (x :: y :: k) (z :: z' :: l2))). destruct (Nat.ltb_spec (S (S (List.length k))) n); [lia|]. congruence.
Qed.
Lemma four {A} (P : A -> Prop) a b c d : Forall P [a; b; c; d] -> P a /\ P b /\ P c /\ P d.
Proof. intros F. rewrite Forall_forall in F. repeat split; apply F; simpl; auto. Qed.
Lemma four2 {A B} (P : A -> B -> Prop) a b c d a' b' c' d' : Forall2 P [a; b; c; d] [a'; b'; c'; d'] -> P a a' /\ P b b' /\ P c c' /\ P d d'.
Proof. intros F. inversion F as [|? ? ? ? p1 F1]. inversion F1 as [|? ? ? ? p2 F2]. inversion F2 as [|? ? ? ? p3 F3]. inversion F3 as [|? ? ? ? p4 F4]. auto. Qed.
Lemma same_hit q h : clean q = Ok h -> balanced q (List.length (h_H h)) -> same_query q h = true.
Proof.
  intros E B. destruct (clean_pad q h E) as (n & F2 & Fl & Fn). unfold args, arrays, balanced in *. apply four2 in F2. destruct F2 as (p1 & p2 & p3 & p4).
  apply four in Fl. destruct Fl as (l1 & l2 & l3 & l4).
  apply four in Fn. destruct Fn as (n1 & n2 & n3 & n4).
  apply four in B. destruct B as (b1 & b2 & b3 & b4).
  rewrite n1 in *. unfold same_query. rewrite (proj2 (all_eq_spec _ _ _ _ _ p1 l1 n1 eq_refl) b1 eq_refl), (proj2 (all_eq_spec _ _ _ _ _ p2 l2 n2 eq_refl) b2 eq_refl), (proj2 (all_eq_spec _ _ _ _ _ p3 l3 n3 eq_refl) b3 eq_refl), (proj2 (all_eq_spec _ _ _ _ _ p4 l4 n4 eq_refl) b4 eq_refl). reflexivity.
Qed.
Lemma same_inv q h g : clean q = Ok h -> Forall (fun l => List.length l = List.length (h_H h)) (arrays g) -> same_query q g = true -> h = g.
Proof.
  intros E B S. destruct (clean_pad q h E) as (n & F2 & Fl & Fn). unfold args, arrays in *. apply four2 in F2. destruct F2 as (p1 & p2 & p3 & p4).
  apply four in Fl. destruct Fl as (l1 & l2 & l3 & l4).
  apply four in Fn. destruct Fn as (n1 & n2 & n3 & n4).
  apply four in B. destruct B as (b1 & b2 & b3 & b4).
  rewrite n1 in *. unfold same_query in S. apply andb_true_iff in S. destruct S as [S s4]. apply andb_true_iff in S. destruct S as [S s3]. apply andb_true_iff in S. destruct S as [s1 s2].
  destruct h as [c1 c2 c3 c4], g as [d1 d2 d3 d4]; cbn [h_H h_K h_L h_W] in *. f_equal; [eapply (all_eq_spec _ _ _ _ _ p1 l1 n1 b1)|eapply (all_eq_spec _ _ _ _ _ p2 l2 n2 b2)|eapply (all_eq_spec _ _ _ _ _ p3 l3 n3 b3)|eapply (all_eq_spec _ _ _ _ _ p4 l4 n4 b4)]; auto.
Qed.
Lemma calc_last I q J r h : clean q = Ok h -> calc_resolution I q = Some (J, r) -> i_last J = Some h /\ (r = Ok tt -> exists o, i_res J = Some o) /\ (r <> Ok tt -> i_res J = i_res I).
Proof.
  intros E. unfold calc_resolution. rewrite E. cbn [set_last i_lat i_o1 i_o2 i_tas].
  assert (X : forall e, Some (set_last I h, Err e) = Some (J, r) -> i_last J = Some h /\ (r = Ok tt -> exists o, i_res J = Some o) /\ (r <> Ok tt -> i_res J = i_res I)) by (intros e X; injection X as <- <-; repeat split; discriminate).
  destruct (standard_system _ _ _); [|apply X]. destruct (map_res _ _) as [ocs|e]; [|apply X]. destruct (all_some ocs) as [cs|]; [|discriminate]. destruct (turn_shape _ _); [|apply X].
  destruct (calc_in_Q _ _); intros Y; injection Y as <- <-; cbn [set_res set_tas i_last i_res]; (split; [reflexivity|]); [split; [intros _; eauto|congruence]|split; [discriminate|reflexivity]].
Qed.
(** The results of the last successful calculation are returned for its points whatever has been changed since then: the
    spectrometer, the sample, the orientation, the smoothing. *)
Theorem C41_stale I q h J K : clean q = Ok h -> balanced q (List.length (h_H h)) -> calc_resolution I q = Some (J, Ok tt) -> i_last K = i_last J -> i_res K = i_res J ->
  exists r, i_res J = Some r /\ get_resolution K q = Some (K, Ok r).
Proof.
  intros E B Ec L R. destruct (calc_last _ _ _ _ _ E Ec) as (La & Re & _). destruct (Re eq_refl) as [r Er]. exists r. split; auto. unfold get_resolution. rewrite L, La, R, Er. now rewrite (same_hit q h E B).
Qed.
Print Assumptions C41_stale.
(** A calculation that raises an exception at new points leaves those points with the old results: asked for again, get_resolution
    returns the results of the points before without raising. *)
Theorem C41_failed I q h r J e : clean q = Ok h -> balanced q (List.length (h_H h)) -> i_res I = Some r -> calc_resolution I q = Some (J, Err e) -> get_resolution J q = Some (J, Ok r).
Proof.
  intros E B R Ec. destruct (calc_last _ _ _ _ _ E Ec) as (La & _ & Re). unfold get_resolution. rewrite La, Re, R by discriminate. now rewrite (same_hit q h E B).
Qed.
Print Assumptions C41_failed.
(** Without a shape, and if nothing has been changed since the last successful calculation: for the same number of points as then,
    get_resolution gives what a new calculation would give, exceptions included. *)
Theorem C41_fresh I q g J q' h : s_shape (i_tas I) = None -> clean q = Ok g -> calc_resolution I q = Some (J, Ok tt) -> clean q' = Ok h -> List.length (h_H h) = List.length (h_H g) ->
  match get_resolution J q', calc_resolution I q' with
  | Some (_, Ok r), Some (K, Ok _) => i_res K = Some r
  | Some (_, Err e), Some (_, Err e') => e = e'
  | None, None => True
  | _, _ => False
  end.
Proof.
  intros S Eg Ec Eh L. destruct (calc_last _ _ _ _ _ Eg Ec) as (La & Re & _). destruct (Re eq_refl) as [r Er]. unfold get_resolution. rewrite La, Er. destruct (same_query q' g) eqn:Sq.
  - assert (h = g). { apply (same_inv q' h g Eh); auto. destruct (clean_pad q g Eg) as (n & _ & _ & Fn). rewrite L. inversion Fn as [|? ? n1 _]; subst. exact Fn. } subst h.
    assert (X : calc_resolution I q' = calc_resolution I q) by (unfold calc_resolution; now rewrite Eh, Eg). rewrite X, Ec. exact Er.
  - assert (Y := calc_same I J q' (calc_setup I q J (Ok tt) S Ec)). destruct (calc_resolution I q') as [[K' x]|], (calc_resolution J q') as [[J' y]|] eqn:EJ; auto; try contradiction. destruct Y as (-> & _ & Y).
    destruct y as [[]|e]; auto. rewrite <- (Y eq_refl) in *. destruct (calc_last _ _ _ _ _ Eh EJ) as (_ & Z & _). destruct (Z eq_refl) as [o Eo]. now rewrite Eo.
Qed.
Print Assumptions C41_fresh.
Lemma F2_length {A B} (P : A -> B -> Prop) l l' : Forall2 P l l' -> List.length l = List.length l'.
Proof. induction 1; simpl; auto. Qed.
(** A number, or an array of copies, in place of the other: the stored results are returned, as many as there were points then. *)
Theorem C41_copies I J r h k l w m n : (0 < m)%nat -> (0 < n)%nat -> (m = 1%nat \/ n = 1%nat) -> calc_resolution I (mkQ (Many (repeat h m)) (Many (repeat k m)) (Many (repeat l m)) (Many (repeat w m))) = Some (J, Ok tt) -> i_res J = Some r ->
  get_resolution J (mkQ (Many (repeat h n)) (Many (repeat k n)) (Many (repeat l n)) (Many (repeat w n))) = Some (J, Ok r) /\ (V h k l <> V 0 0 0 -> cell (i_lat I) -> ~ collinear (i_o1 I) (i_o2 I) -> List.length r = m).
Proof.
  intros Lm Ln D Ec Er. set (q := mkQ (Many (repeat h m)) (Many (repeat k m)) (Many (repeat l m)) (Many (repeat w m))) in *.
  assert (E : clean q = Ok (mkH (repeat h m) (repeat k m) (repeat l m) (repeat w m))) by (apply clean_many; rewrite !repeat_length; reflexivity).
  destruct (calc_last _ _ _ _ _ E Ec) as (La & _ & _). split.
  - unfold get_resolution. rewrite La, Er.
    assert (X : forall x : R, all_eq (Many (repeat x n)) (repeat x m) = true).
    { intros x. assert (RX : forall p, forallb (fun y => if Req_EM_T x y then true else false) (repeat x p) = true) by (intros p; apply forallb_forall; intros y Iy; apply repeat_spec in Iy; subst y; destruct (Req_EM_T x x); congruence).
      assert (RY : forall p, forallb (fun y => if Req_EM_T y x then true else false) (repeat x p) = true) by (intros p; apply forallb_forall; intros y Iy; apply repeat_spec in Iy; subst y; destruct (Req_EM_T x x); congruence).
      unfold all_eq. cbn [to_list]. destruct D as [-> | ->]; cbn [repeat]; [|apply RX]. destruct n as [|[|n]]; [lia|apply (RX 1%nat)|]. exact (RY (S (S n))). }
    unfold same_query. cbn [q_H q_K q_L q_W h_H h_K h_L h_W]. now rewrite !X.
  - intros Nz C N. assert (F : Forall (fun p => fst p <> V 0 0 0) (points_of (mkH (repeat h m) (repeat k m) (repeat l m) (repeat w m)))).
    { unfold points_of. cbn [h_H h_K h_L h_W]. clear - Nz. induction m; cbn [repeat zip4]; constructor; auto. }
    destruct (calc_gen I q _ C N E F) as (cs & F2 & Eq). rewrite Eq in Ec. clear Eq. destruct (turn_shape _ cs) as [s|e]; [|discriminate]. cbv zeta in Ec. destruct (calc_in_Q _ _) as [rs|e] eqn:Ers; [|discriminate].
    injection Ec as <-. cbn [set_res i_res] in Er. injection Er as <-. rewrite map_length, combine_length. apply F2_length in F2. rewrite <- F2.
    assert (Lp : List.length (points_of (mkH (repeat h m) (repeat k m) (repeat l m) (repeat w m))) = m) by (unfold points_of; cbn [h_H h_K h_L h_W]; clear; induction m; cbn [repeat zip4 List.length]; auto).
    assert (Lr : List.length rs = m). { rewrite <- Lp. rewrite <- (map_length (fun p => (get_q (i_lat I) (fst p), snd p))). fold (q_points (i_lat I) (points_of (mkH (repeat h m) (repeat k m) (repeat l m) (repeat w m)))). clear - Ers. unfold calc_in_Q in Ers. destruct (lengths _) as [Ls|]; [|discriminate]. cbn [bind] in Ers. revert Ers. generalize (start (with_shape (i_tas I) s)) 0%nat rs. induction (q_points _ _) as [|[a b] p IH]; intros v i rs0 E; cbn [loop] in E; [injection E as <-; reflexivity|].
      destruct (point _ _ _ _ _ _) as [[v' x]|]; [|discriminate]. cbn [bind] in E. destruct (loop _ _ v' _ _) eqn:El; [|discriminate]. injection E as <-. cbn [List.length]. f_equal. eapply IH; eauto. }
    lia.
Qed.
Print Assumptions C41_copies.

Lemma cosh_small : cosh (/ 10 ^ 12) < 39 / 24.
Proof.
  assert (Ex : exp (/ 10 ^ 12) <= exp (/ 4)) by (destruct (Rle_lt_or_eq_dec (/ 10 ^ 12) (/ 4) ltac:(lra)) as [X|X]; [left; now apply exp_increasing|rewrite X; lra]).
  assert (En : exp (- / 10 ^ 12) <= 1) by (rewrite <- exp_0; left; apply exp_increasing; lra).
  assert (E4 : exp (/ 4) < 2). { assert (X := exp_le_3). assert (Y : exp (/ 4) * exp (/ 4) * (exp (/ 4) * exp (/ 4)) = exp 1) by (rewrite <- !exp_plus; f_equal; field). assert (Z := exp_pos (/ 4)). destruct (Rlt_dec (exp (/ 4)) 2) as [|N]; auto. assert (4 <= exp (/ 4) * exp (/ 4)) by nra. assert (16 <= exp (/ 4) * exp (/ 4) * (exp (/ 4) * exp (/ 4))) by nra. lra. }
  unfold cosh. lra.
Qed.
(** The instrument of TasCase at Q = (0, 3, 0), elastic. *)
Lemma case_at_3 : exists J r, calc_resolution (ex_inst (case 1 None None None None)) (at_hkl 0 3 0 0) = Some (J, Ok tt) /\ i_res J = Some r /\ List.length r = 1%nat /\ same_setup (ex_inst (case 1 None None None None)) J /\ i_last J = Some (mkH [0] [3] [0] [0]).
Proof.
  set (I := ex_inst _). assert (F : Forall (fun p : v3 * R => fst p <> V 0 0 0) (points_of (mkH [0] [3] [0] [0]))) by (repeat constructor; exact three).
  destruct (C40_axes I (at_hkl 0 3 0 0) _ unit_cell_ok axes_ok (clean_scalar 0 3 0 0) F eq_refl eq_refl) as (J & r & Ec & La & Er & F2).
  - apply case_usable; auto; lra.
  - cbn [points_of zip4 h_H h_K h_L h_W]. apply Forall_cons; [|constructor]. cbn [fst snd I ex_inst i_lat i_tas]. rewrite (unit_q _ 3); [|lra|unfold dot; simpl; ring].
    replace 0 with (2072 / 1000 * (3 * 3 - 9)) by field. apply case_reach; [lra|]. rewrite Rabs_pos_eq by lra. lra.
  - exists J, r. split; auto. split; auto. apply F2_length in F2. split; auto. split; auto. now apply (calc_setup I (at_hkl 0 3 0 0) J (Ok tt)).
Qed.
(** At Q = (0, 8, 0) the triangle does not close. *)
Lemma not_at_8 I : same_setup (ex_inst (case 1 None None None None)) I -> exists J, calc_resolution I (at_hkl 0 8 0 0) = Some (J, Err ScatteringTriangleError).
Proof.
  intros (E1 & E2 & E3 & E4 & E5). cbn [ex_inst i_tas i_lat i_o1 i_o2 i_smooth] in *.
  assert (F : Forall (fun p : v3 * R => fst p <> V 0 0 0) (points_of (mkH [0] [8] [0] [0]))) by (repeat constructor; cbn [fst]; intros E; injection E; lra).
  destruct (calc_plain I (at_hkl 0 8 0 0) _ ltac:(rewrite <- E2; exact unit_cell_ok) ltac:(rewrite <- E3, <- E4; exact axes_ok) (clean_scalar 0 8 0 0) F ltac:(rewrite <- E1; reflexivity)) as (cs & _ & Eq). rewrite Eq, <- E1, <- E2. clear Eq.
  cbn [q_points points_of zip4 h_H h_K h_L h_W map fst snd]. rewrite (unit_q _ 8); [|lra|unfold dot; simpl; ring]. set (t := case 1 None None None None).
  assert (U : usable t 1) by (apply case_usable; auto; lra). assert (Ki : kin t 0 = 3) by (apply case_ki; lra). assert (Kf : kfin t 0 = 3) by apply case_kf.
  assert (E : 0 < fst (energies t 0) /\ 0 < snd (energies t 0)) by (unfold energies, t; simpl; destruct (Rlt_dec 0 (-1)); simpl; lra). destruct E as [P1 P2].
  rewrite (proj2 (proj1 (C42_triangle t 8 0 U P1 P2))); [eauto|]. rewrite Ki, Kf. replace ((3 ^ 2 + 3 ^ 2 - 8 ^ 2) / (2 * 3 * 3)) with (- (46 / 18)) by field. rewrite Rabs_Ropp, Rabs_pos_eq by lra. assert (C := cosh_small). lra.
Qed.
Example C41_stale_ex : exists J, calc_resolution (ex_inst (case 1 None None None None)) (at_hkl 0 3 0 0) = Some (J, Ok tt) /\ clean (at_hkl 0 3 0 0) = Ok (mkH [0] [3] [0] [0]) /\ balanced (at_hkl 0 3 0 0) 1.
Proof. destruct case_at_3 as (J & r & E & _). exists J. split; auto. split; [reflexivity|]. repeat constructor. Qed.
(** First (0, 3, 0), then (0, 8, 0), which raises; the second get_resolution at (0, 8, 0) returns. *)
Example C41_failed_ex : exists J r K, calc_resolution (ex_inst (case 1 None None None None)) (at_hkl 0 3 0 0) = Some (J, Ok tt) /\ i_res J = Some r /\
  calc_resolution J (at_hkl 0 8 0 0) = Some (K, Err ScatteringTriangleError) /\ clean (at_hkl 0 8 0 0) = Ok (mkH [0] [8] [0] [0]) /\ balanced (at_hkl 0 8 0 0) 1.
Proof. destruct case_at_3 as (J & r & E & Er & _ & S & _). destruct (not_at_8 J S) as [K EK]. exists J, r, K. repeat split; auto. repeat constructor. Qed.
Example C41_copies_ex : exists J r, calc_resolution (ex_inst (case 1 None None None None)) (mkQ (Many (repeat 0 1)) (Many (repeat 3 1)) (Many (repeat 0 1)) (Many (repeat 0 1))) = Some (J, Ok tt) /\ i_res J = Some r.
Proof. destruct case_at_3 as (J & r & E & Er & _). exists J, r. split; auto. Qed.
(** The same spectrometer with another fixed energy. *)
Definition set_efixed (t : tas) (e : R) : tas :=
  mkTas (t_method t) (t_moncor t) (t_hcol t) (t_vcol t) (t_mono t) (t_ana t) (t_thickness t) (t_Q t) (t_infin t) e
    (t_arms t) (t_horifoc t) (t_guide t) (t_monitor t) (t_detector t) (s_dir t) (s_mosaic t) (s_vmosaic t) (s_type t)
    (s_width t) (s_height t) (s_depth t) (s_shape t).
(** get_resolution does not follow the instrument: when the fixed energy has been lowered so far that the point is out of reach,
    it still returns a resolution there. *)
Theorem C41_current_refuted : exists I q J e r K, calc_resolution I q = Some (J, Ok tt) /\ get_resolution (set_tas J (set_efixed (i_tas J) e)) q = Some (set_tas J (set_efixed (i_tas J) e), Ok r) /\
  calc_resolution (set_tas J (set_efixed (i_tas J) e)) q = Some (K, Err ScatteringTriangleError).
Proof.
  destruct case_at_3 as (J & r & Ec & Er & _ & (S1 & S2 & S3 & S4 & S5) & La). set (t := set_efixed (i_tas J) (2072 / 1000)).
  destruct (C41_stale _ _ _ J (set_tas J t) (clean_scalar 0 3 0 0) ltac:(repeat constructor) Ec eq_refl eq_refl) as (r' & _ & Eg). cbn [ex_inst i_tas i_lat i_o1 i_o2 i_smooth] in S1, S2, S3, S4, S5.
  assert (F : Forall (fun p : v3 * R => fst p <> V 0 0 0) (points_of (mkH [0] [3] [0] [0]))) by (repeat constructor; exact three).
  destruct (calc_plain (set_tas J t) (at_hkl 0 3 0 0) _ ltac:(cbn [set_tas i_lat]; rewrite <- S2; exact unit_cell_ok) ltac:(cbn [set_tas i_o1 i_o2]; rewrite <- S3, <- S4; exact axes_ok) (clean_scalar 0 3 0 0) F ltac:(unfold t; rewrite <- S1; reflexivity)) as (cs & _ & Eq).
  cbn [q_points points_of zip4 h_H h_K h_L h_W map fst snd set_tas i_tas i_lat] in Eq. rewrite <- S2, (unit_q _ 3) in Eq; [|lra|unfold dot; simpl; ring].
  assert (U : usable t 1). { destruct (case_usable 1 None None None None 1 ltac:(lra) I) as (U1 & U2 & U3 & U4 & U5 & U6 & U7 & U8 & U9 & U10). unfold t. rewrite <- S1. repeat (split; [assumption|]). assumption. }
  assert (En : energies t 0 = (2072 / 1000 + 0, 2072 / 1000)) by (unfold energies, t; rewrite <- S1; simpl; destruct (Rlt_dec 0 (-1)); [lra|reflexivity]).
  assert (Ki : kin t 0 = 1) by (unfold kin, CONVERT2; rewrite En; cbn [fst]; replace ((2072 / 1000 + 0) / (2072 / 1000)) with 1 by field; apply sqrt_1). assert (Kf : kfin t 0 = 1) by (unfold kfin, CONVERT2; rewrite En; cbn [snd]; replace (2072 / 1000 / (2072 / 1000)) with 1 by field; apply sqrt_1).
  rewrite (proj2 (proj1 (C42_triangle t 3 0 U ltac:(rewrite En; cbn; lra) ltac:(rewrite En; cbn; lra)))) in Eq.
  - eexists _, _, J, (2072 / 1000), r', _. split; [exact Ec|]. split; [exact Eg|exact Eq].
  - rewrite Ki, Kf. replace ((1 ^ 2 + 1 ^ 2 - 3 ^ 2) / (2 * 1 * 1)) with (- (7 / 2)) by field. rewrite Rabs_Ropp, Rabs_pos_eq by lra. assert (C := cosh_small). lra.
Qed.
Print Assumptions C41_current_refuted.
Example C41_fresh_ex : exists J K, s_shape (i_tas (ex_inst (case 1 None None None None))) = None /\ calc_resolution (ex_inst (case 1 None None None None)) (at_hkl 0 3 0 0) = Some (J, Ok tt) /\
  get_resolution J (at_hkl 0 8 0 0) = Some (K, Err ScatteringTriangleError) /\ List.length (h_H (mkH [0] [8] [0] [0])) = List.length (h_H (mkH [0] [3] [0] [0])).
Proof.
  destruct case_at_3 as (J & r & E & Er & _ & S & La). destruct (not_at_8 J S) as [K EK]. exists J, K. split; auto. split; auto. split; [|reflexivity].
  unfold get_resolution. rewrite La, Er, EK. destruct (same_query (at_hkl 0 8 0 0) (mkH [0] [3] [0] [0])) eqn:X; auto. exfalso. apply (same_inv _ _ _ (clean_scalar 0 8 0 0)) in X; [injection X; lra|repeat constructor].
Qed.

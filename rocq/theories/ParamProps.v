(** C63: get_resolution_params; C64: smoothing. *)
From Coq Require Import String List ZArith Reals Lra Lia Psatz Bool.
From Coquelicot Require Import Coquelicot.
From Verif Require Import Base MatInv TasModel TasProof TasCase TasProps MatModel MatProps LinAlg LatticeModel LatticeProof LatticeProps SysModel SysProps ToolsModel HistModel StateProps CacheProps ParamModel.
Import ListNotations.
Local Open Scope R_scope.

(** The three planes: the axis left out, and the two rows of the four-dimensional matrix that stay. *)
Inductive plane_axes : string -> nat -> nat -> nat -> Prop :=
| Pxy : plane_axes "QxQy" 2 0 1 | Pxw : plane_axes "QxW" 1 0 3 | Pyw : plane_axes "QyW" 0 1 3.
Lemma find_here h k l w : find_point h k l w 0 (points_of (mkH [h] [k] [l] [w])) = Some 0%nat.
Proof. cbn. repeat (destruct (Req_EM_T _ _); [|congruence]). reflexivity. Qed.
Lemma numbers_finite A : numbers (finite A) = Some A.
Proof. reflexivity. Qed.
(** quad of MatProps, of the matrix without its third row and column *)
Lemma flat_quad A x : quad 3 (flat A) x = qf 4 A (fun i => nth i [x 0%nat; x 1%nat; 0; x 2%nat] 0).
Proof. unfold quad, qf, flat, skip. cbn. ring. Qed.
Lemma flat_posdef A : MatInv.posdef 4 A -> MatProps.posdef 3 (flat A).
Proof.
  intros [_ P] x (i & Li & Ni). rewrite flat_quad. apply P. destruct i as [|[|[|i]]]; [exists 0%nat|exists 1%nat|exists 3%nat|lia]; (split; [lia|exact Ni]).
Qed.
Definition holds (I : inst) (h k l w r : R) (A : MatModel.mat) : Prop :=
  i_last I = Some (mkH [h] [k] [l] [w]) /\ exists RM, i_res I = Some [mkO (Some r) (finite A) RM].
(** For the one point that has been calculated, with prefactor r and positive definite matrix A: mode 'project' gives the matrix p
    of the Gaussian integrated over the third axis of the plane (the vertical coordinate being 0); the prefactor of that integral
    is c * r, but the prefactor returned is c * c * r.  Mode 'slice' gives the entries of A with the prefactor c * r, where the
    Gaussian on the plane itself has the prefactor r.  (c = sqrt(2 pi / entry of the axis left out).) *)
Theorem C63_value I h k l w r A plane ax i j : holds I h k l w r A -> MatInv.posdef 4 A -> plane_axes plane ax i j ->
  exists b p, b = nth ax [A 0%nat 0%nat; A 1%nat 1%nat; A 3%nat 3%nat] 0 /\ 0 < b /\ let c := sqrt (2 * PI / b) in
  get_params I h k l w plane "project" = Some (I, Ok (Some (mkP (Some (c * c * r)) (Some (p 0 0)%nat) (Some (p 1 1)%nat) (Some (p 0 1)%nat)))) /\
  (forall x, is_lim (fun T => RInt (fun t => r * exp (- / 2 * qf 4 A (fun n => nth n (let y := insert ax t x in [y 0%nat; y 1%nat; 0; y 2%nat]) 0))) (- T) T) p_infty
    (c * r * exp (- / 2 * (p 0%nat 0%nat * x 0%nat * x 0%nat + 2 * p 0%nat 1%nat * x 0%nat * x 1%nat + p 1%nat 1%nat * x 1%nat * x 1%nat)))) /\
  get_params I h k l w plane "slice" = Some (I, Ok (Some (mkP (Some (c * r)) (Some (A i i)) (Some (A j j)) (Some (A i j))))).
Proof.
  intros (La & RM & Re) P Pl. assert (Pf := flat_posdef A P). assert (Lk : (ax <= 2)%nat) by (inversion Pl; lia).
  assert (Bp := MatProps.posdef_diag 3 (flat A) ax Pf ltac:(lia)). assert (Eb : flat A ax ax = nth ax [A 0%nat 0%nat; A 1%nat 1%nat; A 3%nat 3%nat] 0) by (inversion Pl; reflexivity).
  destruct (C34_minimum 2 ax r (flat A) Lk Pf) as (r1 & p & Ep & _ & Sp & _). assert (Hi := C34_integral 2 ax r (flat A) r1 p Lk Ep).
  assert (Sy : sym 3 (flat A)). { intros a b La' Lb. unfold flat. apply (proj1 P); unfold skip; [destruct (Nat.ltb a 2) eqn:X|destruct (Nat.ltb b 2) eqn:X]; try apply Nat.ltb_lt in X; lia. } specialize (Sp Sy).
  exists (flat A ax ax), p. split; [exact Eb|]. split; [exact Bp|]. cbv zeta. set (c := sqrt (2 * PI / flat A ax ax)).
  assert (E1 : project ax (c * r) (flat A) = Some (c * (c * r), p)). { unfold project in *. destruct (Rlt_dec 0 (flat A ax ax)); [|lra]. injection Ep as _ <-. reflexivity. }
  assert (Er : r1 = c * r). { unfold project in Ep. destruct (Rlt_dec 0 (flat A ax ax)); [|lra]. injection Ep as <- _. reflexivity. }
  assert (Fo : flat_o (finite A) ax ax = Some (flat A ax ax)) by reflexivity.
  split; [|split].
  - unfold get_params. rewrite Re, La, find_here. cbn [nth_error List.length Nat.eqb]. unfold params_of.
    assert (G : in_plane (mkO (Some r) (finite A) RM) ax i j "project" = Some (mkP (Some (c * c * r)) (Some (p 0 0)%nat) (Some (p 1 1)%nat) (Some (p 0 1)%nat))).
    { unfold in_plane. cbn [o_R0 o_RMS]. rewrite Fo. destruct (Rlt_dec 0 (flat A ax ax)); [|lra]. fold c. cbn [String.eqb Ascii.eqb Bool.eqb]. rewrite numbers_finite. rewrite E1. do 2 f_equal. f_equal. ring. }
    inversion Pl; subst; cbn [String.eqb Ascii.eqb Bool.eqb]; rewrite G; reflexivity.
  - intros x. specialize (Hi x). rewrite Er in Hi. assert (Eq : quad 2 p x = (p 0%nat 0%nat * x 0%nat * x 0%nat + 2 * p 0%nat 1%nat * x 0%nat * x 1%nat + p 1%nat 1%nat * x 1%nat * x 1%nat)) by (unfold quad; cbn [sumn]; rewrite (Sp 1%nat 0%nat) by lia; ring). rewrite Eq in Hi.
    eapply is_lim_ext; [|exact Hi]. intros T. apply RInt_ext. intros t _. cbv beta zeta. now rewrite flat_quad.
  - unfold get_params. rewrite Re, La, find_here. cbn [nth_error List.length Nat.eqb]. unfold params_of.
    assert (G : in_plane (mkO (Some r) (finite A) RM) ax i j "slice" = Some (mkP (Some (c * r)) (Some (A i i)) (Some (A j j)) (Some (A i j)))).
    { unfold in_plane. cbn [o_R0 o_RMS]. rewrite Fo. destruct (Rlt_dec 0 (flat A ax ax)); [|lra]. reflexivity. }
    inversion Pl; subst; cbn [String.eqb Ascii.eqb Bool.eqb]; rewrite G; reflexivity.
Qed.
Print Assumptions C63_value.
(** An instrument that holds the unit matrix at (1, 2, 0), elastic. *)
Definition holder : inst := mkInst (case 1 None None None None) unit_cell (V 1 0 0) (V 0 1 0) None (Some (mkH [1] [2] [0] [0])) (Some [mkO (Some 5) (finite (diag [1; 1; 1; 1])) (finite (diag [1; 1; 1; 1]))]).
Example C63_value_ex : holds holder 1 2 0 0 5 (diag [1; 1; 1; 1]) /\ MatInv.posdef 4 (diag [1; 1; 1; 1]) /\ plane_axes "QxW" 1 0 3.
Proof. split; [split; [reflexivity|eexists; reflexivity]|]. split; [apply posdef_diag_l; auto; repeat constructor; lra|constructor]. Qed.
(** The prefactor of 'project' is not the one of the integrated Gaussian, and that of 'slice' is not the one of the Gaussian. *)
Theorem C63_prefactor_refuted : exists I h k l w r A r1 r2 a b c a' b' c', holds I h k l w r A /\ MatInv.posdef 4 A /\
  get_params I h k l w "QxQy" "project" = Some (I, Ok (Some (mkP (Some r1) a b c))) /\ get_params I h k l w "QxQy" "slice" = Some (I, Ok (Some (mkP (Some r2) a' b' c'))) /\
  is_lim (fun T => RInt (fun t => r * exp (- / 2 * qf 4 A (fun n => nth n [0; 0; 0; t] 0))) (- T) T) p_infty r2 /\ r1 <> r2 /\ r2 <> r.
Proof.
  destruct C63_value_ex as (H & P & _). destruct (C63_value holder 1 2 0 0 5 _ "QxQy" 2 0 1 H P Pxy) as (b & p & Eb & Pb & E1 & Hi & E2). cbv zeta in *. cbn in Eb. subst b.
  specialize (Hi (fun _ => 0)). cbn [insert] in Hi. set (c := sqrt (2 * PI / 1)) in *.
  assert (C : 2 < c). { unfold c. rewrite Rdiv_1. apply Rsqr_incrst_0; [|lra|apply sqrt_pos]. assert (Q := PI2_3_2). rewrite Rsqr_sqrt by lra. unfold Rsqr. lra. }
  exists holder, 1, 2, 0, 0, 5, (diag [1; 1; 1; 1]). do 8 eexists. split; [exact H|]. split; [exact P|]. split; [exact E1|]. split; [exact E2|]. split; [|split; nra].
  replace (c * 5) with (c * 5 * exp (- / 2 * (p 0%nat 0%nat * 0 * 0 + 2 * p 0%nat 1%nat * 0 * 0 + p 1%nat 1%nat * 0 * 0))).
  - eapply is_lim_ext; [|exact Hi]. intros T. apply RInt_ext. intros t _. reflexivity.
  - replace (- / 2 * _) with 0 by ring. rewrite exp_0. ring.
Qed.
Print Assumptions C63_prefactor_refuted.
Lemma find_none h k l w : forall ps i, find_point h k l w i ps = None <-> ~ In (V h k l, w) ps.
Proof.
  induction ps as [|[[a b c] e] ps IH]; intros i; cbn [find_point In vx vy vz]; [split; auto|]. split.
  - destruct (Req_EM_T a h), (Req_EM_T b k), (Req_EM_T c l), (Req_EM_T e w); try discriminate; intros H [X|X]; try (injection X; intros; congruence); apply IH in H; contradiction.
  - intros H. destruct (Req_EM_T a h), (Req_EM_T b k), (Req_EM_T c l), (Req_EM_T e w); subst; try (apply IH; tauto). exfalso. apply H. now left.
Qed.
Lemma find_some h k l w : forall ps i n, find_point h k l w i ps = Some n -> (i <= n < i + List.length ps)%nat.
Proof.
  induction ps as [|[[a b c] e] ps IH]; intros i n; cbn [find_point List.length vx vy vz]; [discriminate|].
  destruct (if Req_EM_T a h then _ else _); [intros E; injection E as <-; lia|]. intros E. apply IH in E. lia.
Qed.
Lemma find_in h k l w : forall ps i n, find_point h k l w i ps = Some n -> In (V h k l, w) ps.
Proof.
  induction ps as [|[[a b c] e] ps IH]; intros i n; cbn [find_point In vx vy vz]; [discriminate|]. destruct (Req_EM_T a h), (Req_EM_T b k), (Req_EM_T c l), (Req_EM_T e w); subst; auto; intros E; apply IH in E; auto.
Qed.
(** Otherwise no parameters are returned: a point that is not among those of the last calculation raises InstrumentError, and no
    calculation is made; after a calculation at more than one point the three planes raise UnboundLocalError; any other name of a
    plane, the documented 'QxQySlice', 'QxWSlice' and 'QyWSlice' included, and any other mode gives None.  The instrument is not
    changed. *)
Theorem C63_nothing I hs rs h k l w plane mode : i_last I = Some hs -> i_res I = Some rs -> List.length rs = List.length (points_of hs) ->
  let planes := ["QxQy"; "QxW"; "QyW"]%string in
  get_params I h k l w plane mode = Some (I, Err InstrumentError) /\ ~ In (V h k l, w) (points_of hs) \/
  In (V h k l, w) (points_of hs) /\
  (In plane planes /\ (2 <= List.length rs)%nat /\ get_params I h k l w plane mode = Some (I, Err UnboundLocalError) \/
   ~ In plane planes /\ get_params I h k l w plane mode = Some (I, Ok None) \/
   In plane planes /\ List.length rs = 1%nat /\ mode <> "project"%string /\ mode <> "slice"%string /\ get_params I h k l w plane mode = Some (I, Ok None) \/
   In plane planes /\ List.length rs = 1%nat /\ In mode ["project"; "slice"]%string /\ exists p, get_params I h k l w plane mode = Some (I, Ok (Some p))).
Proof.
  intros La Re L planes. unfold get_params. rewrite Re, La. destruct (find_point h k l w 0 (points_of hs)) as [n|] eqn:F; [right|left; split; auto; now apply find_none in F].
  assert (In (V h k l, w) (points_of hs)). { now apply find_in in F. }
  split; auto. apply find_some in F. destruct (nth_error rs n) as [o|] eqn:En; [|apply nth_error_None in En; lia]. unfold params_of.
  assert (Pl : In plane planes \/ ~ In plane planes) by (destruct (in_dec string_dec plane planes); auto).
  destruct Pl as [Pl|Pl].
  - destruct (Nat.eqb_spec (List.length rs) 1) as [L1|L1].
    + right. right. assert (G : forall x i j, (mode <> "project"%string /\ mode <> "slice"%string /\ in_plane o x i j mode = None) \/ (In mode ["project"; "slice"]%string /\ exists p, in_plane o x i j mode = Some p)).
      { intros x i j. unfold in_plane. destruct (String.eqb_spec mode "project"); [right; split; [subst; simpl; auto|eauto]|]. destruct (String.eqb_spec mode "slice"); [right; split; [subst; simpl; auto|eauto]|]. left; auto. }
      destruct Pl as [<-|[<-|[<-|[]]]]; cbn [String.eqb Ascii.eqb Bool.eqb].
      * destruct (G 2%nat 0%nat 1%nat) as [(A & B & ->)|(A & p & ->)]; [left|right]; repeat split; simpl; eauto.
      * destruct (G 1%nat 0%nat 3%nat) as [(A & B & ->)|(A & p & ->)]; [left|right]; repeat split; simpl; eauto.
      * destruct (G 0%nat 1%nat 3%nat) as [(A & B & ->)|(A & p & ->)]; [left|right]; repeat split; simpl; eauto.
    + left. split; auto. split; [lia|]. destruct Pl as [<-|[<-|[<-|[]]]]; reflexivity.
  - right. left. split; auto. destruct (String.eqb_spec plane "QxQy"); [subst; exfalso; apply Pl; simpl; auto|]. destruct (String.eqb_spec plane "QxW"); [subst; exfalso; apply Pl; simpl; auto|]. destruct (String.eqb_spec plane "QyW"); [subst; exfalso; apply Pl; simpl; auto|]. reflexivity.
Qed.
Print Assumptions C63_nothing.
Example C63_nothing_ex : get_params holder 1 2 0 0 "QxQySlice" "project" = Some (holder, Ok None) /\ get_params holder 1 2 0 1 "QxQy" "project" = Some (holder, Err InstrumentError).
Proof.
  destruct (C63_nothing holder _ _ 1 2 0 0 "QxQySlice" "project" eq_refl eq_refl eq_refl) as [[_ X]|[_ [(X & _)|[(_ & X)|[(X & _)|(X & _)]]]]]; [exfalso; apply X; simpl; auto|simpl in X; repeat (destruct X as [X|X]; [discriminate|]); contradiction| |simpl in X; repeat (destruct X as [X|X]; [discriminate|]); contradiction|simpl in X; repeat (destruct X as [X|X]; [discriminate|]); contradiction].
  split; auto. destruct (C63_nothing holder _ _ 1 2 0 1 "QxQy" "project" eq_refl eq_refl eq_refl) as [[Y _]|[Y _]]; auto. exfalso. simpl in Y. destruct Y as [Y|[]]. injection Y. lra.
Qed.
(** An instrument that has not calculated anything calculates the point first. *)
Theorem C63_first I h k l w plane mode : i_res I = None -> get_params I h k l w plane mode =
  match calc_resolution I (at_hkl h k l w) with
  | None => None
  | Some (J, Err e) => Some (J, Err e)
  | Some (J, Ok _) => get_params J h k l w plane mode
  end.
Proof.
  intros N. unfold get_params at 1. rewrite N. fold (at_hkl h k l w). destruct (calc_resolution I (at_hkl h k l w)) as [[J [[]|e]]|] eqn:E; auto. destruct (calc_last I _ J (Ok tt) _ (clean_scalar h k l w) E) as (_ & X & _). destruct (X eq_refl) as [o Eo]. unfold get_params. now rewrite Eo.
Qed.
Print Assumptions C63_first.
Example C63_first_ex : i_res (ex_inst (case 1 None None None None)) = None /\ exists J r, calc_resolution (ex_inst (case 1 None None None None)) (at_hkl 0 3 0 0) = Some (J, Ok tt) /\ i_res J = Some r.
Proof. split; [reflexivity|]. destruct case_at_3 as (J & r & E & Er & _). eauto. Qed.

(** * Smoothing *)
Definition set_smooth (I : inst) (s : option smooth) : inst := mkInst (i_tas I) (i_lat I) (i_o1 I) (i_o2 I) s (i_last I) (i_res I).
Lemma diag_pos A i : MatInv.posdef 4 A -> (i < 4)%nat -> 0 < A i i.
Proof.
  intros [_ P] L. assert (X := P (fun j => if Nat.eqb i j then 1 else 0) ltac:(exists i; split; auto; rewrite Nat.eqb_refl; lra)).
  unfold qf in X. do 4 (destruct i as [|i]; [cbn [sum Nat.eqb] in X; lra|]). lia.
Qed.
(** Smoothing widths with X = 0 change nothing.  With X not 0, RM stays as it is, but the prefactor and every entry of RMS off the
    diagonal is nan; on the diagonal the width (squared) grows by the square of the smoothing width: X, Y, E, Z in this order, so
    that E goes to the vertical and Z to the energy. *)
Theorem C64_smooth I q h s : cell (i_lat I) -> ~ collinear (i_o1 I) (i_o2 I) -> clean q = Ok h -> List.Forall (fun p => fst p <> V 0 0 0) (points_of h) ->
  List.Forall (fun p => dot (fst p) (cross (i_o1 I) (i_o2 I)) = 0) (points_of h) ->
  s_shape (i_tas I) = None -> i_smooth I = None -> usable (i_tas I) (List.length (points_of h)) ->
  List.Forall (fun p => reachable (i_tas I) (get_q (i_lat I) (fst p), snd p)) (points_of h) ->
  exists J K outs outs', calc_resolution I q = Some (J, Ok tt) /\ calc_resolution (set_smooth I (Some s)) q = Some (K, Ok tt) /\ i_res J = Some outs /\ i_res K = Some outs' /\
  (sm_X s = 0 -> outs = outs') /\
  (sm_X s <> 0 -> Forall2 (fun o o' => o_RM o' = o_RM o /\ o_R0 o' = None /\
    (forall i j, (i < 4)%nat -> (j < 4)%nat -> i <> j -> o_RMS o' i j = None) /\
    (forall i, (i < 4)%nat -> exists x y, o_RMS o i i = Some x /\ o_RMS o' i i = Some y /\ 0 < x /\ 0 < y /\
       / y = / x + nth i [sm_X s; sm_Y s; sm_E s; sm_Z s] 0 ^ 2 / (8 * ln 2))) outs outs').
Proof.
  intros C N E F Fp S Sm U Re. destruct (calc_plain I q h C N E F S) as (cs & F2 & Ec).
  assert (L : List.length (q_points (i_lat I) (points_of h)) = List.length (points_of h)) by apply map_length.
  assert (Fr : List.Forall (reachable (i_tas I)) (q_points (i_lat I) (points_of h))) by (unfold q_points; now apply Forall_map).
  destruct (C42_positive (i_tas I) (q_points (i_lat I) (points_of h)) ltac:(now rewrite L) Fr) as (rs & Er & Frs).
  assert (Ec' : calc_resolution (set_smooth I (Some s)) q = Some (set_res (set_last (set_smooth I (Some s)) h) (map (fun '(c, o) => finish (Some s) c o) (combine cs rs)), Ok tt)).
  { destruct (calc_plain (set_smooth I (Some s)) q h C N E F S) as (cs' & F2' & Ec'). cbn [set_smooth i_tas i_lat i_smooth i_o1 i_o2] in Ec', F2'. rewrite Er in Ec'. rewrite Ec'. do 4 f_equal. f_equal.
    destruct (comps _ _ _ _ C N F) as (cs0 & E0 & _ & _). clear - F2 F2' C N F. rename F2' into G. revert cs F2 G. revert cs'. induction F as [|p l Hp F IH]; intros cs' cs A B; inversion A; inversion B; subst; auto. f_equal; [|auto].
    destruct H1 as (a & b & -> & D), H6 as (a' & b' & -> & D'). destruct (direction_unique _ _ _ _ _ _ _ _ C N Hp D D') as [-> ->]. reflexivity. }
  rewrite Er, Sm in Ec. eexists _, _, _, _. split; [exact Ec|]. split; [exact Ec'|]. split; [reflexivity|]. split; [reflexivity|]. split.
  - intros X. apply map_ext. intros [c [[r A]|]]; cbn [finish]; auto. destruct (Req_EM_T (sm_X s) 0); [reflexivity|contradiction].
  - intros X. apply F2_map in Frs. clear - F2 Frs Fp X C N. revert cs rs F2 Frs. induction Fp as [|p l Hp F IH]; intros cs rs A B; inversion A; inversion B; subst; [constructor|]. cbn [combine map]. constructor; [|auto].
    destruct H1 as (a & b & -> & D), H6 as (r & RM & -> & Rp & PM). cbn [finish]. destruct (Req_EM_T (sm_X s) 0); [contradiction|]. cbn [o_RM o_R0 o_RMS]. split; [reflexivity|]. split; [reflexivity|].
    assert (P : MatInv.posdef 4 (mul 4 (tr (tmat (get_q (i_lat I) (fst p), a, b))) (mul 4 RM (tmat (get_q (i_lat I) (fst p), a, b))))).
    { apply (posdef_congr 4 4 (tr (tmat (get_q (i_lat I) (fst p), a, b)))); auto. apply T_rank. destruct D as (_ & _ & _ & D). rewrite (proj2 D Hp). lra. }
    set (A0 := mul 4 (tr _) _) in *. split.
    + intros i j _ _ Nij. unfold smoothed. apply Nat.eqb_neq in Nij. now rewrite Nij.
    + intros i Li. assert (Ai := diag_pos A0 i P Li). unfold smoothed. rewrite Nat.eqb_refl. destruct (Req_EM_T (A0 i i) 0); [lra|]. set (w2 := nth i _ 0 ^ 2).
      assert (Lp : 0 < ln 2) by (rewrite <- ln_1; apply ln_increasing; lra). assert (W : 0 <= w2) by apply pow2_ge_0. assert (Wp : 0 <= w2 / (8 * ln 2)) by (apply Rmult_le_pos; [auto|]; left; apply Rinv_0_lt_compat; lra).
      assert (Ap : 0 < / A0 i i) by (now apply Rinv_0_lt_compat). cbv zeta. fold w2. destruct (Req_EM_T (w2 / (8 * ln 2) + 1 / A0 i i) 0); [unfold Rdiv in *; lra|].
      eexists _, _. split; [reflexivity|]. split; [reflexivity|]. split; auto. split; [unfold Rdiv at 1; rewrite Rmult_1_l; apply Rinv_0_lt_compat; unfold Rdiv in *; lra|]. unfold Rdiv at 1. rewrite Rmult_1_l, Rinv_inv. unfold Rdiv. ring.
Qed.
Print Assumptions C64_smooth.
Example C64_smooth_ex : let I := ex_inst (case 1 None None None None) in let h := mkH [0] [3] [0] [0] in
  cell (i_lat I) /\ ~ collinear (i_o1 I) (i_o2 I) /\ clean (at_hkl 0 3 0 0) = Ok h /\ List.Forall (fun p => fst p <> V 0 0 0) (points_of h) /\
  List.Forall (fun p => dot (fst p) (cross (i_o1 I) (i_o2 I)) = 0) (points_of h) /\ s_shape (i_tas I) = None /\ i_smooth I = None /\ usable (i_tas I) (List.length (points_of h)) /\
  List.Forall (fun p => reachable (i_tas I) (get_q (i_lat I) (fst p), snd p)) (points_of h).
Proof.
  intros I h. split; [exact unit_cell_ok|]. split; [exact axes_ok|]. split; [reflexivity|]. split; [repeat constructor; exact three|]. split; [repeat constructor; unfold dot, cross, I, ex_inst; simpl; ring|]. split; [reflexivity|]. split; [reflexivity|].
  split; [apply case_usable; auto; lra|]. cbn [points_of zip4 h h_H h_K h_L h_W]. apply Forall_cons; [|constructor]. cbn [fst snd I ex_inst i_lat i_tas]. rewrite (unit_q _ 3); [|lra|unfold dot; simpl; ring].
  replace 0 with (2072 / 1000 * (3 * 3 - 9)) by field. apply case_reach; [lra|]. rewrite Rabs_pos_eq by lra. lra.
Qed.

(** C102: magnetic unit cells. *)
From Coq Require Import String List Arith ZArith QArith Reals Qreals Lra Lia.
From Verif Require Import Base LinAlg LatticeModel LatticeProof SymData SymModel SymProof SymGroup SymProps StructModel StructProps MagCellModel.
Import ListNotations.
Local Open Scope R_scope.

Lemma known_entry a g : space_group a = Ok g -> exists e, In e table /\ space_group (SInt (e_number e)) = Ok g.
Proof.
  intros H. assert (Dec : forall e, {denotes a e} + {~ denotes a e}).
  { intros e. unfold denotes. destruct a as [n|s|]; [apply Z.eq_dec|apply In_dec, string_dec|right; tauto]. }
  destruct (Exists_dec (denotes a) table Dec) as [E|E].
  - apply Exists_exists in E. destruct E as (e & I & D). exists e. split; [exact I|].
    destruct (named_group None a e I D) as (gens & ops & B & G1 & O1 & _). destruct (named_group None (SInt (e_number e)) e I eq_refl) as (gens2 & ops2 & B2 & G2 & O2 & _).
    assert (gens2 = gens) by congruence. subst. assert (ops2 = ops) by congruence. subst. unfold space_group in *. rewrite B in H. injection H as <-. exact B2.
  - rewrite (C29_unknown a) in H; [discriminate|]. intros e I D. apply E, Exists_exists. exists e. auto.
Qed.
Lemma known_group a g : space_group a = Ok g -> group_mod_lattice (g_ops g) /\ List.length (g_ops g) = g_total g.
Proof.
  intros H. destruct (known_entry a g H) as (e & I & E). destruct C26_space_groups as (_ & C). destruct (C e I) as (g' & S & T & L & G & _). assert (g' = g) by congruence. subst. split; [exact G|congruence].
Qed.
Lemma ops_not_empty a g : space_group a = Ok g -> g_ops g <> [].
Proof. intros H. destruct (known_group a g H) as ((_ & (i & I & _) & _) & _). intros E. rewrite E in I. destruct I. Qed.

(** The entry says ion, moment and occupancy. *)
Definition states (n : mag_entry) (i : string) (p m : v3) (o : R) : Prop := n_ion n = Some i /\ n_pos n = Some p /\ n_moment n = Some m /\ n_occ n = Some o.
Lemma atom_states n p a : mag_atom_of n p = Ok a <-> exists i m o, n_ion n = Some i /\ n_moment n = Some m /\ n_occ n = Some o /\ a = mkMag i p m o.
Proof.
  unfold mag_atom_of, StructModel.get. destruct (n_ion n), (n_moment n), (n_occ n); cbn; split; try discriminate; try (intros (i & m & o & A & B & C & D); congruence).
  intros H. injection H as <-. do 3 eexists. repeat split.
Qed.
Lemma map_atoms n ps : ps <> [] -> forall l, map_res (mag_atom_of n) ps = Ok l <-> exists i m o, n_ion n = Some i /\ n_moment n = Some m /\ n_occ n = Some o /\ l = map (fun p => mkMag i p m o) ps.
Proof.
  intros N l. destruct (n_ion n) as [i|] eqn:I; [destruct (n_moment n) as [m|] eqn:M; [destruct (n_occ n) as [o|] eqn:O|]|].
  - assert (A : forall qs, map_res (mag_atom_of n) qs = Ok (map (fun p => mkMag i p m o) qs)).
    { induction qs as [|q qs IH]; [reflexivity|]. cbn [map_res]. assert (X : mag_atom_of n q = Ok (mkMag i q m o)) by (apply atom_states; eauto 7). rewrite X. cbn [bind]. rewrite IH. reflexivity. }
    rewrite A. split; [intros H; injection H as <-; do 3 eexists; repeat split|]. intros (i' & m' & o' & E1 & E2 & E3 & ->). injection E1 as <-. injection E2 as <-. injection E3 as <-. reflexivity.
  - split; [|intros (i' & m' & o' & E1 & E2 & E3 & _); discriminate]. destruct ps; [congruence|]. cbn. unfold mag_atom_of at 1. rewrite I, M, O. discriminate.
  - split; [|intros (i' & m' & o' & E1 & E2 & E3 & _); discriminate]. destruct ps; [congruence|]. cbn. unfold mag_atom_of at 1. rewrite I, M. discriminate.
  - split; [|intros (i' & m' & o' & E1 & E2 & E3 & _); discriminate]. destruct ps; [congruence|]. cbn. unfold mag_atom_of at 1. rewrite I. discriminate.
Qed.
Lemma group_ok g l : g_ops g <> [] -> forall a, group_mag g l = Ok a ->
  List.length a = (List.length l * List.length (g_ops g))%nat /\ (forall n, In n l -> exists i p m o, states n i p m o) /\
  forall x y n op i p m o, nth_error l x = Some n -> nth_error (g_ops g) y = Some op -> states n i p m o -> nth_error a (x * List.length (g_ops g) + y) = Some (mkMag i (apply_real op p) m o).
Proof.
  intros N. induction l as [|n l IH]; intros a H.
  - injection H as <-. split; [reflexivity|]. split; [intros n []|]. intros x y n op i p m o X. destruct x; discriminate.
  - cbn [group_mag] in H. unfold StructModel.get at 1 in H. destruct (n_pos n) as [p|] eqn:P; [|discriminate]. cbn [bind] in H.
    destruct (map_res (mag_atom_of n) (symmetrize_real g p)) as [b|] eqn:B; [|discriminate]. cbn [bind] in H. apply map_atoms in B; [|unfold symmetrize_real; destruct (g_ops g); [congruence|discriminate]].
    destruct (group_mag g l) as [c|]; [|discriminate]. cbn [bind] in H. injection H as <-. destruct B as (i & m & o & E1 & E2 & E3 & ->). destruct (IH c eq_refl) as (L & A & X).
    assert (LB : List.length (map (fun q => mkMag i q m o) (symmetrize_real g p)) = List.length (g_ops g)) by (unfold symmetrize_real; rewrite !map_length; reflexivity).
    split; [rewrite app_length, LB, L; reflexivity|]. split; [intros n' [<-|I']; [exists i, p, m, o; repeat split; assumption|auto]|].
    intros [|x] y n' op i' p' m' o' H1 H2 (S1 & S2 & S3 & S4).
    + injection H1 as <-. cbn [Nat.mul Nat.add]. assert (Y : (y < List.length (g_ops g))%nat) by (apply nth_error_Some; congruence). rewrite nth_error_app1 by (rewrite LB; exact Y). unfold symmetrize_real. rewrite map_map. erewrite map_nth_error by exact H2. congruence.
    + cbn [nth_error] in H1. rewrite nth_error_app2 by (rewrite LB; lia). rewrite LB. replace (S x * List.length (g_ops g) + y - List.length (g_ops g))%nat with (x * List.length (g_ops g) + y)%nat by lia. apply (X x y n' op); auto. repeat split; assumption.
Qed.
Lemma group_complete g l : (forall n, In n l -> exists i p m o, states n i p m o) -> exists a, group_mag g l = Ok a.
Proof.
  induction l as [|n l IH]; intros H; [eexists; reflexivity|]. destruct (H n (or_introl eq_refl)) as (i & p & m & o & S1 & S2 & S3 & S4). destruct IH as [b B]; [intros x X; apply H; right; exact X|].
  cbn [group_mag]. rewrite S2. cbn [StructModel.get bind]. assert (A : forall qs, map_res (mag_atom_of n) qs = Ok (map (fun p => mkMag i p m o) qs)).
  { induction qs as [|q qs IHq]; [reflexivity|]. cbn [map_res]. assert (X : mag_atom_of n q = Ok (mkMag i q m o)) by (apply atom_states; eauto 7). rewrite X. cbn [bind]. rewrite IHq. reflexivity. }
  rewrite A. cbn [bind]. rewrite B. eexists. reflexivity.
Qed.
Lemma plain_ok l : forall a, plain_mag l = Ok a ->
  List.length a = List.length l /\ (forall n, In n l -> exists i p m o, states n i p m o) /\
  forall x n i p m o, nth_error l x = Some n -> states n i p m o -> nth_error a x = Some (mkMag i p m o).
Proof.
  induction l as [|n l IH]; intros a H.
  - injection H as <-. split; [reflexivity|]. split; [intros n []|]. intros x n i p m o X. destruct x; discriminate.
  - cbn [plain_mag] in H. unfold StructModel.get at 1 in H. destruct (n_pos n) as [p|] eqn:P; [|discriminate]. cbn [bind] in H. destruct (mag_atom_of n p) as [b|] eqn:B; [|discriminate]. cbn [bind] in H.
    apply atom_states in B. destruct (plain_mag l) as [c|]; [|discriminate]. cbn [bind] in H. injection H as <-. destruct B as (i & m & o & E1 & E2 & E3 & ->). destruct (IH c eq_refl) as (L & A & X).
    split; [cbn; congruence|]. split; [intros n' [<-|I']; [exists i, p, m, o; repeat split; assumption|auto]|].
    intros [|x] n' i' p' m' o' H1 (S1 & S2 & S3 & S4); cbn [nth_error] in *; [congruence|]. apply (X x n'); auto. repeat split; assumption.
Qed.
Lemma plain_complete l : (forall n, In n l -> exists i p m o, states n i p m o) -> exists a, plain_mag l = Ok a.
Proof.
  induction l as [|n l IH]; intros H; [eexists; reflexivity|]. destruct (H n (or_introl eq_refl)) as (i & p & m & o & S1 & S2 & S3 & S4). destruct IH as [b B]; [intros x X; apply H; right; exact X|].
  cbn [plain_mag]. rewrite S2. cbn [StructModel.get bind]. assert (X : mag_atom_of n p = Ok (mkMag i p m o)) by (apply atom_states; eauto 7). rewrite X. cbn [bind]. rewrite B. eexists. reflexivity.
Qed.
Lemma get_some {A} (o : option A) x : StructModel.get o = Ok x <-> o = Some x.
Proof. destruct o; cbn; split; congruence. Qed.

(** A cell can be made exactly if every entry says ion, position, moment and occupancy, the group if named is known, and there are a propagation vector and a
    lattice. *)
Theorem C102_made : forall d, (exists c, magnetic_unit_cell d = Ok c) <->
  (exists l, d_atoms d = Some l /\ forall n, In n l -> exists i p m o, states n i p m o) /\ (forall s, d_group d = Some s -> exists g, space_group s = Ok g) /\
  d_propagation d <> None /\ d_lattice d <> None.
Proof.
  intros d. split.
  - intros (c & H). unfold magnetic_unit_cell in H.
    match type of H with bind ?x _ = _ => destruct x as [[og a]|e] eqn:X; [|discriminate] end. cbn [bind] in H.
    destruct (d_propagation d) as [k|]; [|discriminate]. destruct (d_lattice d) as [t|]; [|discriminate]. split; [|split; [|split; discriminate]].
    + destruct (d_group d) as [s|].
      * destruct (space_group s) as [g|] eqn:G; [|discriminate]. cbn [bind] in X. destruct (d_atoms d) as [l|]; [|discriminate]. cbn [StructModel.get bind] in X. destruct (group_mag g l) as [b|] eqn:B; [|discriminate].
        exists l. split; [reflexivity|]. apply (group_ok g l (ops_not_empty s g G) b B).
      * destruct (d_atoms d) as [l|]; [|discriminate]. cbn [StructModel.get bind] in X. destruct (plain_mag l) as [b|] eqn:B; [|discriminate]. exists l. split; [reflexivity|]. apply (plain_ok l b B).
    + intros s E. rewrite E in X. destruct (space_group s) as [g|]; [eauto|discriminate].
  - intros ((l & A & C) & G & P & L). unfold magnetic_unit_cell. rewrite A. cbn [StructModel.get bind]. destruct (d_propagation d); [|congruence]. destruct (d_lattice d); [|congruence].
    destruct (d_group d) as [s|].
    + destruct (G s eq_refl) as [g Gs]. rewrite Gs. cbn [bind]. destruct (group_complete g l C) as [a E]. rewrite E. eexists. reflexivity.
    + destruct (plain_complete l C) as [a E]. rewrite E. eexists. reflexivity.
Qed.
Print Assumptions C102_made.
(** Every entry gives one atom or, with a space group, one for each operation: at the image of its position, and with the moment of the entry as it is.
    Chirality and phase that are given are lost; otherwise they are 0. *)
Theorem C102_cell : forall d c l, magnetic_unit_cell d = Ok c -> d_atoms d = Some l ->
  d_propagation d = Some (l_propagation c) /\ d_lattice d = Some (l_lattice c) /\
  (d_group d = None -> l_group c = None /\ List.length (l_atoms c) = List.length l /\ forall x n i p m o, nth_error l x = Some n -> states n i p m o -> nth_error (l_atoms c) x = Some (mkMag i p m o)) /\
  (forall s, d_group d = Some s -> exists g, space_group s = Ok g /\ l_group c = Some g /\ List.length (l_atoms c) = (List.length l * g_total g)%nat /\
     forall x y n op i p m o, nth_error l x = Some n -> nth_error (g_ops g) y = Some op -> states n i p m o -> nth_error (l_atoms c) (x * g_total g + y) = Some (mkMag i (apply_real op p) m o)) /\
  (forall x, d_chirality d = Some x -> l_chirality c = None) /\ (d_chirality d = None -> l_chirality c = Some 0) /\
  (forall x, d_ph d = Some x -> l_phase c = None) /\ (d_ph d = None -> l_phase c = Some 0).
Proof.
  intros d c l H A. unfold magnetic_unit_cell in H. rewrite A in H. cbn [StructModel.get bind] in H.
  match type of H with bind ?x _ = _ => destruct x as [[og a]|e] eqn:X; [|discriminate] end. cbn [bind] in H.
  destruct (d_propagation d) as [k|]; [|discriminate]. destruct (d_lattice d) as [t|]; [|discriminate]. cbn [StructModel.get bind fst snd] in H. injection H as <-. cbn [l_propagation l_lattice l_group l_atoms l_chirality l_phase].
  split; [reflexivity|]. split; [reflexivity|]. split; [|split; [|repeat split; try (intros x ->); try (intros ->); reflexivity]].
  - intros E. rewrite E in X. destruct (plain_mag l) as [b|] eqn:B; [|discriminate]. cbn [bind] in X. injection X as <- <-. destruct (plain_ok l b B) as (L & _ & Y). auto.
  - intros s E. rewrite E in X. destruct (space_group s) as [g|] eqn:G; [|discriminate]. cbn [bind] in X. destruct (group_mag g l) as [b|] eqn:B; [|discriminate]. cbn [bind] in X. injection X as <- <-.
    destruct (group_ok g l (ops_not_empty s g G) b B) as (L & _ & Y). destruct (known_group s g G) as (_ & T). exists g. rewrite <- T. auto.
Qed.
Print Assumptions C102_cell.

(** ** Symmetry of the moments *)
(** A moment, given along the axes of the cell, is an axial vector. *)
Definition axial (o : op) (m : v3) : v3 := vscal (det (rot o)) (mv (rot o) m).
Definition same_site (p q : v3) : Prop := exists a b c : Z, p = vadd q (V (IZR a) (IZR b) (IZR c)).
(** The group is a symmetry of the atoms and their moments. *)
Definition symmetric_moments (g : group) (l : list mag_atom) : Prop := forall o a, In o (g_ops g) -> In a l ->
  exists b, In b l /\ g_ion b = g_ion a /\ g_occ b = g_occ a /\ same_site (g_pos b) (apply_real o (g_pos a)) /\ g_moment b = axial o (g_moment a).
Lemma eqv_site a b p : eqv a b -> same_site (apply_real b p) (apply_real a p).
Proof.
  intros ((E1&E2&E3&E4&E5&E6&E7&E8&E9) & F1 & F2 & F3). apply qcong_R in F1, F2, F3. destruct F1 as (n1 & F1), F2 as (n2 & F2), F3 as (n3 & F3).
  exists (- n1)%Z, (- n2)%Z, (- n3)%Z. unfold apply_real, rot, tr. rewrite E1, E2, E3, E4, E5, E6, E7, E8, E9, F1, F2, F3. apply v3_eq; unfold vadd; cbn [vx vy vz]; rewrite opp_IZR; ring.
Qed.
(** For one magnetic atom the group is a symmetry of what is made exactly if each of its operations leaves the moment as it is. *)
Theorem C102_moments : forall d c n s g i p m o, magnetic_unit_cell d = Ok c -> d_atoms d = Some [n] -> states n i p m o -> d_group d = Some s -> space_group s = Ok g ->
  (symmetric_moments g (l_atoms c) <-> forall op, In op (g_ops g) -> axial op m = m).
Proof.
  intros d c n s g i p m o H A S G Gs. destruct (C102_cell d c [n] H A) as (_ & _ & _ & X & _). destruct (X s G) as (g' & Gs' & _ & L & Y). assert (g' = g) by congruence. subst g'. clear X.
  destruct (known_group s g Gs) as ((_ & (e & Ie & Ee) & Cl & _) & T).
  assert (At : forall a, In a (l_atoms c) <-> exists op, In op (g_ops g) /\ a = mkMag i (apply_real op p) m o).
  { intros a. split.
    - intros I. apply In_nth_error in I. destruct I as (y & I). assert (B : (y < List.length (g_ops g))%nat) by (rewrite T; cbn in L; rewrite Nat.add_0_r in L; rewrite <- L; apply nth_error_Some; congruence).
      destruct (nth_error (g_ops g) y) as [op|] eqn:O; [|apply nth_error_None in O; lia]. exists op. split; [eapply nth_error_In; exact O|]. assert (Z := Y 0%nat y n op i p m o eq_refl O S). cbn [Nat.mul Nat.add] in Z. congruence.
    - intros (op & I & ->). apply In_nth_error in I. destruct I as (y & O). assert (Z := Y 0%nat y n op i p m o eq_refl O S). eapply nth_error_In. exact Z. }
  split.
  - intros Sy op I. destruct (Sy op (mkMag i (apply_real op p) m o) I) as (b & Ib & _ & _ & _ & M); [apply At; eauto|]. apply At in Ib. destruct Ib as (op' & _ & ->). cbn [g_moment] in M. congruence.
  - intros F op a I Ia. apply At in Ia. destruct Ia as (op' & I' & ->). destruct (Cl op op' I I') as (q & Iq & Eq). exists (mkMag i (apply_real q p) m o). split; [apply At; eauto|]. cbn [g_ion g_occ g_pos g_moment]. split; [reflexivity|]. split; [reflexivity|].
    split; [rewrite <- apply_mul_R; apply eqv_site; exact Eq|]. symmetry. apply F. exact I.
Qed.
Print Assumptions C102_moments.
(** The expectation that the group named is a symmetry of the cell that is made is false. *)
Definition ops_named (s : symbol_arg) : list op := match space_group s with Ok g => g_ops g | Err _ => [] end.
Definition unit_lattice : lattice := mkL 5 6 7 90 90 90.
Definition iron (m : v3) : mag_dict := mkDict None None (Some (SInt 3)) (Some [mkEntry (Some "Fe2"%string) (Some (V (1/10) (2/10) (3/10))) (Some m) (Some 1)]) (Some (V 0 0 0)) (Some unit_lattice).
Theorem C102_symmetry_refuted : exists d c s g, magnetic_unit_cell d = Ok c /\ d_group d = Some s /\ space_group s = Ok g /\ ~ symmetric_moments g (l_atoms c).
Proof.
  assert (G : exists g, space_group (SInt 3) = Ok g /\ In (mkOp (-1) 0 0 0 1 0 0 0 (-1) 0 0 0) (g_ops g)).
  { destruct (space_group (SInt 3)) as [g|e] eqn:E; [|exfalso; vm_compute in E; discriminate]. exists g. split; [reflexivity|]. assert (O : ops_named (SInt 3) = g_ops g) by (unfold ops_named; rewrite E; reflexivity). rewrite <- O. vm_compute. auto. }
  destruct G as (g & G & I). set (d := iron (V 1 0 0)). assert (M : exists c, magnetic_unit_cell d = Ok c).
  { apply C102_made. split; [|split; [|split; discriminate]].
    - eexists. split; [reflexivity|]. intros n [<-|[]]. do 4 eexists. repeat split.
    - intros s E. injection E as <-. eauto. }
  destruct M as [c M]. exists d, c, (SInt 3), g. split; [exact M|]. split; [reflexivity|]. split; [exact G|]. intros S.
  destruct (C102_moments d c _ (SInt 3) g _ _ _ _ M eq_refl (conj eq_refl (conj eq_refl (conj eq_refl eq_refl))) eq_refl G) as (F & _). specialize (F S _ I). unfold axial, rot, vscal, mv, det in F. cbn in F. injection F as F _ _. lra.
Qed.
Print Assumptions C102_symmetry_refuted.

(** ** In a material *)
(** A material has a magnetic cell exactly if it is given under both keys; the key magnetic_cell alone is passed over, and magnetic_unit_cell alone is a KeyError. *)
Theorem C102_material : forall key cell,
  (forall c, material_magnetic key cell = Ok (Some c) <-> key = true /\ exists d, cell = Some d /\ magnetic_unit_cell d = Ok c) /\
  (key = false -> material_magnetic key cell = Ok None) /\ (key = true -> cell = None -> material_magnetic key cell = Err KeyError).
Proof.
  intros key cell. unfold material_magnetic. split; [|split; [intros ->; reflexivity|intros -> ->; reflexivity]]. intros c. destruct key; [|split; [discriminate|intros [? _]; discriminate]].
  destruct cell as [d|]; cbn [StructModel.get bind]; [|split; [discriminate|intros (_ & d & ? & _); discriminate]]. destruct (magnetic_unit_cell d) as [c'|] eqn:E; cbn [bind]; split.
  - intros H. injection H as <-. eauto.
  - intros (_ & d' & D & M). congruence.
  - discriminate.
  - intros (_ & d' & D & M). congruence.
Qed.
Print Assumptions C102_material.
(** Moments along the twofold axis are left as they are. *)
Example C102_symmetric_example : exists c g, magnetic_unit_cell (iron (V 0 2 0)) = Ok c /\ space_group (SInt 3) = Ok g /\ symmetric_moments g (l_atoms c).
Proof.
  destruct (space_group (SInt 3)) as [g|e] eqn:E; [|exfalso; vm_compute in E; discriminate]. assert (O : ops_named (SInt 3) = g_ops g) by (unfold ops_named; rewrite E; reflexivity).
  assert (M : exists c, magnetic_unit_cell (iron (V 0 2 0)) = Ok c).
  { apply C102_made. split; [|split; [|split; discriminate]].
    - eexists. split; [reflexivity|]. intros n [<-|[]]. do 4 eexists. repeat split.
    - intros s X. injection X as <-. eauto. }
  destruct M as [c M]. exists c, g. split; [exact M|]. split; [reflexivity|].
  apply (C102_moments (iron (V 0 2 0)) c _ (SInt 3) g _ _ _ _ M eq_refl (conj eq_refl (conj eq_refl (conj eq_refl eq_refl))) eq_refl E). intros op I. rewrite <- O in I. vm_compute in I.
  destruct I as [<-|[<-|[]]]; unfold axial, rot, vscal, mv, det; cbn; apply v3_eq; cbn; lra.
Qed.

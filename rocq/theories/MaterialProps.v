(** Properties of building materials (C55, C56) and of their cross sections (C57). *)
From Coq Require Import String Ascii List ZArith QArith Reals Qreals Lra Lia Permutation Bool.
From Verif Require Import Base AtomData SymData SymModel SymProof SymGroup SymMetricProps LinAlg LatticeModel LatticeProof LatticeProps StructModel StructProps StructMoreProps.
Import ListNotations.
Local Open Scope R_scope.

(** ** C55: which ions can be used *)
Definition in_periodic_table (ion : string) : Prop := exists m, In (ion, m) mass_table.
Definition has_length (ion : string) : Prop := exists s, In s scattering_table /\ s_ion s = ion /\ s_b s <> NoLength.
Lemma scatterers_nodup : NoDup (map s_ion scattering_table).
Proof. apply (nodup_b_ok String.eqb); [apply String.eqb_refl|]. vm_compute. reflexivity. Qed.
Lemma scatterer_in s : In s scattering_table -> scatterer_of (s_ion s) = Some s.
Proof.
  intros I. unfold scatterer_of. destruct (find _ scattering_table) as [s'|] eqn:E.
  - apply find_some in E. destruct E as [I' E]. apply String.eqb_eq in E. f_equal. exact (NoDup_map_inj s_ion _ s' s scatterers_nodup I' I E).
  - exfalso. assert (X := find_none _ _ E s I). cbv beta in X. rewrite String.eqb_refl in X. discriminate.
Qed.
Lemma scatterer_inv ion s : scatterer_of ion = Some s -> In s scattering_table /\ s_ion s = ion.
Proof. unfold scatterer_of. intros E. apply find_some in E. destruct E as [I E]. apply String.eqb_eq in E. auto. Qed.
Lemma mass_of_iff ion : in_periodic_table ion <-> mass_of ion <> None.
Proof.
  unfold mass_of, in_periodic_table. destruct (find _ mass_table) as [[k m]|] eqn:E.
  - apply find_some in E. destruct E as [I E]. cbn in E. apply String.eqb_eq in E. subst k. split; [discriminate|eauto].
  - split; [|cbn; congruence]. intros (m & I). assert (X := find_none _ _ E _ I). cbn in X. rewrite String.eqb_refl in X. discriminate.
Qed.
Lemma mu_cell_ok l : (exists x, mu_cell l = Ok x) <-> forall i, In i l -> in_periodic_table (i_ion i).
Proof.
  induction l as [|i l IH]; cbn [mu_cell]; [split; [contradiction|eauto]|]. destruct (mass_of (i_ion i)) as [m|] eqn:E.
  - destruct (mu_cell l) as [x|e]; cbn [bind].
    + split; [|eauto]. intros _ j [<-|I]; [apply mass_of_iff; congruence|]. apply (proj1 IH); eauto.
    + split; [intros (x & ?); discriminate|]. intros A. destruct (proj2 IH) as (x & ?); [intros; apply A; right; auto|discriminate].
  - split; [intros (x & ?); discriminate|]. intros A. exfalso. apply (proj1 (mass_of_iff (i_ion i))); auto. apply A. now left.
Qed.
Lemma mu_cell_err l e : mu_cell l = Err e -> e = KeyError.
Proof. induction l as [|i l IH]; cbn [mu_cell]; [discriminate|]. destruct (mass_of (i_ion i)); [|congruence]. destruct (mu_cell l); [discriminate|]. cbn [bind]. intros H. injection H as <-. auto. Qed.
Lemma make_atom_ok ion p occ mc mn u ua : in_periodic_table ion -> ((exists a, make_atom ion p occ mc mn u ua = Ok a) <-> has_length ion).
Proof.
  intros M. apply mass_of_iff in M. unfold make_atom. destruct (mass_of ion) as [m|]; [|congruence]. unfold has_length. destruct (scatterer_of ion) as [s|] eqn:S.
  - apply scatterer_inv in S. destruct S as [I <-]. destruct (s_b s) eqn:B.
    + cbn [bind]. split; [destruct mn; intros (a & ?); discriminate|]. intros (s' & I' & E & N). rewrite (NoDup_map_inj s_ion _ s' s scatterers_nodup I' I E) in N. congruence.
    + split; [intros _; exists s; repeat split; auto; congruence|]. intros _. destruct mn; cbn; eauto.
    + split; [intros _; exists s; repeat split; auto; congruence|]. intros _. destruct mn; cbn; eauto.
  - split; [intros (a & ?); discriminate|]. intros (s & I & <- & _). rewrite scatterer_in in S by auto. discriminate.
Qed.

(** C55.  Without a space group a material can be built exactly from ions of the periodic table that have a
    scattering length; an ion outside the periodic table is a KeyError whatever the rest. *)
Theorem C55_material : forall c l mn, c_group c = None -> c_mass_norm c = Some mn -> c_magnetic c = false -> c_lattice c = Some l ->
  (exists m, make_material c = Ok m) <-> forall i, In i (c_composition c) -> in_periodic_table (i_ion i) /\ has_length (i_ion i).
Proof.
  intros c l mn Hg Hn Hm Hl. unfold make_material. rewrite Hg, Hn, Hm, Hl. set (fu := match c_formula_units c with Some f => f | None => 1 end).
  assert (X : forall mc items, (forall i, In i items -> in_periodic_table (i_ion i)) ->
     (exists at_, plain_atoms mc (Some mn) (map with_occ items) = Ok at_) <-> forall i, In i items -> has_length (i_ion i)).
  { intros mc. induction items as [|i r IH]; intros A; cbn [map plain_atoms]; [split; [contradiction|eauto]|].
    assert (Ai := A i (or_introl eq_refl)). assert (Ar : forall j, In j r -> in_periodic_table (i_ion j)) by (intros; apply A; right; auto). specialize (IH Ar).
    unfold atom_of at 1. destruct i as [ion pos occ ui ua]. unfold with_occ, with_uiso, with_uaniso, set_uaniso. cbn [i_ion i_pos i_occ i_uiso i_uaniso] in *.
    set (occ' := match occ with Some x => x | None => 1 end). set (u' := match ui with Some x => x | None => 0 end).
    assert (E : exists ua', atom_of mc (Some mn) match ua with Some _ => mkItem ion pos (Some occ') (Some u') ua | None => mkItem ion pos (Some occ') (Some u') (Some zero3) end pos = make_atom ion pos occ' mc mn u' ua').
    { destruct ua as [ua|]; [exists ua|exists zero3]; reflexivity. }
    destruct E as (ua' & E). unfold atom_of in E. cbn [i_pos] in E |- *. rewrite E.
    assert (Mk := make_atom_ok ion pos occ' mc mn u' ua' Ai). destruct (make_atom ion pos occ' mc mn u' ua') as [a|e]; cbn [bind].
    - assert (Hi : has_length ion) by (apply Mk; eauto). destruct (plain_atoms mc (Some mn) _) as [at_|e]; cbn [bind].
      + split; [|eauto]. intros _ j [<-|J]; [exact Hi|]. apply (proj1 IH); eauto.
      + split; [intros (x & ?); discriminate|]. intros B. destruct (proj2 IH) as (x & ?); [intros; apply B; right; auto|discriminate].
    - split; [intros (x & ?); discriminate|]. intros B. destruct (proj2 Mk) as (x & ?); [apply (B (mkItem ion pos occ ui ua)); now left|discriminate]. }
  assert (Mu := mu_cell_ok (c_composition c)). destruct (mu_cell (c_composition c)) as [m|e]; cbn [bind].
  - assert (A : forall i, In i (c_composition c) -> in_periodic_table (i_ion i)) by (apply Mu; eauto). specialize (X (m * fu) _ A).
    destruct (plain_atoms _ _ _) as [at_|e]; cbn [bind].
    + split; [|eauto]. intros _ i I. split; auto. apply (proj1 X); eauto.
    + split; [intros (x & ?); discriminate|]. intros B. destruct (proj2 X) as (x & ?); [intros i I; apply B; auto|discriminate].
  - split; [intros (x & ?); discriminate|]. intros B. destruct (proj2 Mu) as (x & ?); [intros i I; apply B; auto|discriminate].
Qed.
Print Assumptions C55_material.
Theorem C55_unknown_mass : forall c i, In i (c_composition c) -> ~ in_periodic_table (i_ion i) -> make_material c = Err KeyError.
Proof.
  intros c i I N. unfold make_material. assert (Mu := mu_cell_ok (c_composition c)). destruct (mu_cell (c_composition c)) as [m|e] eqn:E.
  - exfalso. apply N. apply Mu; eauto.
  - apply mu_cell_err in E. now subst e.
Qed.
Print Assumptions C55_unknown_mass.

(** C55.  Isotopes can be made into atoms, but never appear in a material. *)
Definition is_digit (c : ascii) : bool := (48 <=? nat_of_ascii c)%nat && (nat_of_ascii c <=? 57)%nat.
Definition isotope (ion : string) : bool := match ion with String c _ => is_digit c | EmptyString => false end.
Lemma no_isotope_mass : forallb (fun p => negb (isotope (fst p))) mass_table = true.
Proof. vm_compute. reflexivity. Qed.
Theorem C55_isotopes : forall c i, In i (c_composition c) -> isotope (i_ion i) = true -> make_material c = Err KeyError.
Proof.
  intros c i I S. apply (C55_unknown_mass c i I). intros (m & J). assert (T := no_isotope_mass). rewrite forallb_forall in T. specialize (T _ J). cbn [fst] in T.
  rewrite S in T. discriminate.
Qed.
Print Assumptions C55_isotopes.
Example C55_isotopes_ex : length (filter (fun s => isotope (s_ion s)) scattering_table) = 266%nat /\ isotope "2H" = true /\
  exists a, make_atom "2H" (V 0 0 0) 1 1 false 0 zero3 = Ok a.
Proof. split; [vm_compute; reflexivity|]. split; [reflexivity|]. eexists. vm_compute. reflexivity. Qed.

(** C55.  All elements of the periodic table can be used except thirteen that have no scattering entry at all and
    seven whose scattering length is unknown. *)
Definition no_entry : list string := ["Bh"; "Bk"; "Cf"; "Db"; "Es"; "Fm"; "Hs"; "Lr"; "Md"; "Mt"; "No"; "Rf"; "Sg"]%string.
Definition no_length : list string := ["Ac"; "At"; "Cm"; "Fr"; "Po"; "Pu"; "Rn"]%string.
Definition memb (x : string) (l : list string) : bool := existsb (String.eqb x) l.
Definition outcome (ion : string) : option (option slength) := option_map (fun s => match s_b s with NoLength => None | b => Some b end) (scatterer_of ion).
Lemma elements_checked : forallb (fun p => match outcome (fst p) with
  | None => memb (fst p) no_entry && negb (memb (fst p) no_length)
  | Some None => memb (fst p) no_length && negb (memb (fst p) no_entry)
  | Some (Some _) => negb (memb (fst p) no_entry) && negb (memb (fst p) no_length) end) mass_table = true.
Proof. vm_compute. reflexivity. Qed.
Lemma mem_In x l : memb x l = true <-> In x l.
Proof. unfold memb. rewrite existsb_exists. split; [intros (y & I & E); apply String.eqb_eq in E; now subst|intros I; exists x; split; [auto|apply String.eqb_refl]]. Qed.
Theorem C55_elements : forall ion p occ mc mn u ua, in_periodic_table ion ->
  (In ion no_entry /\ make_atom ion p occ mc mn u ua = Err KeyError) \/
  (In ion no_length /\ make_atom ion p occ mc mn u ua = Err TypeError) \/
  (~ In ion no_entry /\ ~ In ion no_length /\ exists a, make_atom ion p occ mc mn u ua = Ok a).
Proof.
  intros ion p occ mc mn u ua P. assert (M := proj1 (mass_of_iff ion) P). destruct P as (q & P). assert (T := elements_checked). rewrite forallb_forall in T. specialize (T _ P). cbn [fst] in T.
  unfold outcome in T. unfold make_atom. destruct (scatterer_of ion) as [s|]; cbn [option_map] in T.
  - destruct (mass_of ion) as [m|]; [|congruence]. destruct (s_b s); apply andb_prop in T; destruct T as [T1 T2].
    + right; left. split; [now apply mem_In|]. destruct mn; reflexivity.
    + right; right. split; [|split]; [intros J; apply mem_In in J; rewrite J in T1; discriminate|intros J; apply mem_In in J; rewrite J in T2; discriminate|destruct mn; cbn; eauto].
    + right; right. split; [|split]; [intros J; apply mem_In in J; rewrite J in T1; discriminate|intros J; apply mem_In in J; rewrite J in T2; discriminate|destruct mn; cbn; eauto].
  - apply andb_prop in T. destruct T as [T1 T2]. left. split; [now apply mem_In|reflexivity].
Qed.
Print Assumptions C55_elements.
Example C55_ex : in_periodic_table "Pu" /\ in_periodic_table "Cf" /\ in_periodic_table "Al" /\ ~ in_periodic_table "2H".
Proof.
  split; [|split; [|split]]; try (apply mass_of_iff; vm_compute; discriminate). rewrite mass_of_iff. intros N. apply N. vm_compute. reflexivity.
Qed.

(** ** C56: materials with a space group *)
Definition completed (lh : bool) (i : item) : item := if lh then with_uiso i else set_uaniso (with_uiso i).
Lemma group_atoms_spec g lh mc mn items atoms : group_atoms g lh mc mn items = Ok atoms ->
  map a_pos atoms = flat_map (fun i => symmetrize_real g (i_pos i)) items /\
  Forall (fun a => exists i, In i items /\ atom_of mc mn (completed lh i) (a_pos a) = Ok a) atoms.
Proof.
  revert atoms. induction items as [|i items IH]; intros atoms H; cbn [group_atoms] in H; [injection H as <-; split; [reflexivity|constructor]|].
  fold (completed lh i) in H. destruct (map_res (atom_of mc mn (completed lh i)) (symmetrize_real g (i_pos i))) as [as1|] eqn:E; [|discriminate]. cbn [bind] in H.
  destruct (group_atoms g lh mc mn items) as [as2|]; [|discriminate]. cbn [bind] in H. injection H as <-. destruct (IH as2 eq_refl) as [P F]. apply map_res_In in E.
  cbn [flat_map]. rewrite map_app, P. split.
  - f_equal. clear - E. induction E; auto. cbn [map]. f_equal; auto. apply atom_of_fields in H. tauto.
  - apply Forall_app. split.
    + clear - E. induction E; constructor; auto. assert (X := H). apply atom_of_fields in X. destruct X as (-> & _). exists i. split; [now left|exact H].
    + eapply Forall_impl; [|exact F]. intros a (j & J & K). exists j. split; [now right|exact K].
Qed.
Lemma material_group c m s g : make_material c = Ok m -> c_group c = Some s -> space_group s = Ok g -> exists mu0,
  mu_cell (c_composition c) = Ok mu0 /\ mu m = mu0 /\ c_magnetic c = false /\ c_lattice c = Some (m_lattice m) /\
  group_atoms g (has_uaniso (last (map with_occ (c_composition c)) (mkItem EmptyString (V 0 0 0) None None None)))
    (mu0 * match c_formula_units c with Some f => f | None => 1 end) (c_mass_norm c) (map with_occ (c_composition c)) = Ok (m_atoms m).
Proof.
  intros Hm Hs Hg. unfold make_material in Hm. destruct (mu_cell (c_composition c)) as [mu0|]; [|discriminate]. cbn [bind] in Hm. rewrite Hs, Hg in Hm. cbn [bind] in Hm.
  destruct (group_atoms g _ _ _ _) as [atoms|] eqn:E; [|discriminate]. cbn [bind] in Hm. destruct (c_magnetic c); [discriminate|].
  destruct (c_lattice c) as [l|]; [|discriminate]. injection Hm as <-. exists mu0. cbn. auto 10.
Qed.
(** C56.  The positions are, entry by entry, the images under every operation, each kept: an entry always
    contributes as many atoms as the group has operations, special position or not. *)
Theorem C56_positions : forall c m s g, make_material c = Ok m -> c_group c = Some s -> space_group s = Ok g ->
  map a_pos (m_atoms m) = flat_map (fun i => map (fun o => apply_real o (i_pos i)) (g_ops g)) (c_composition c) /\
  length (m_atoms m) = (length (g_ops g) * length (c_composition c))%nat.
Proof.
  intros c m s g Hm Hs Hg. destruct (material_group c m s g Hm Hs Hg) as (mu0 & _ & _ & _ & _ & E). apply group_atoms_spec in E. destruct E as [P _].
  assert (Q : map a_pos (m_atoms m) = flat_map (fun i => map (fun o => apply_real o (i_pos i)) (g_ops g)) (c_composition c)).
  { rewrite P, flat_map_concat_map, map_map, <- flat_map_concat_map. reflexivity. }
  split; [exact Q|]. rewrite <- (map_length a_pos), Q. clear. induction (c_composition c) as [|i r IH]; cbn [flat_map length]; [lia|].
  rewrite app_length, map_length, IH. lia.
Qed.
Print Assumptions C56_positions.

(** C56.  Anisotropic displacements: whether they are kept is decided by the last entry alone. *)
Theorem C56_uaniso_dropped : forall c m s g, make_material c = Ok m -> c_group c = Some s -> space_group s = Ok g ->
  forall pre i, c_composition c = pre ++ [i] -> i_uaniso i = None -> Forall (fun a => a_uaniso a = zero3) (m_atoms m).
Proof.
  intros c m s g Hm Hs Hg pre i Hc Hu. destruct (material_group c m s g Hm Hs Hg) as (mu0 & _ & _ & _ & _ & E). apply group_atoms_spec in E. destruct E as [_ F].
  rewrite Hc, map_app in F. cbn [map] in F. rewrite last_last in F. unfold has_uaniso in F. cbn [with_occ i_uaniso] in F. rewrite Hu in F. eapply Forall_impl; [|exact F].
  intros a (j & _ & J). cbn [completed] in J. apply atom_of_fields in J. destruct J as (_ & _ & _ & A & _). cbn in A. congruence.
Qed.
Print Assumptions C56_uaniso_dropped.
Lemma group_atoms_missing g mc mn items i : (0 < length (g_ops g))%nat -> In i items -> i_uaniso i = None -> exists e, group_atoms g true mc mn items = Err e.
Proof.
  intros Gp I U. induction items as [|j items IH]; [contradiction|]. cbn [group_atoms]. destruct I as [->|I].
  - assert (Z : forall p, exists e, atom_of mc mn (with_uiso i) p = Err e).
    { intros p. unfold atom_of. cbn [with_uiso i_occ i_uiso i_uaniso]. rewrite U. unfold get. destruct (i_occ i); cbn [bind]; eauto. destruct mn; cbn [bind]; eauto. }
    unfold symmetrize_real. destruct (g_ops g) as [|o ops]; [cbn in Gp; lia|]. cbn [map map_res]. destruct (Z (apply_real o (i_pos i))) as (e & ->). cbn [bind]. eauto.
  - destruct (map_res _ _); cbn [bind]; eauto. destruct (IH I) as (e & ->). cbn [bind]. eauto.
Qed.
Theorem C56_uaniso_missing : forall c s g, c_group c = Some s -> space_group s = Ok g ->
  forall pre i j, c_composition c = pre ++ [i] -> i_uaniso i <> None -> In j pre -> i_uaniso j = None -> forall m, make_material c <> Ok m.
Proof.
  intros c s g Hs Hg pre i j Hc Hu I Hj m Hm. destruct (material_group c m s g Hm Hs Hg) as (mu0 & _ & _ & _ & _ & E).
  rewrite Hc, map_app in E. cbn [map] in E. rewrite last_last in E. unfold has_uaniso in E. cbn [with_occ i_uaniso] in E. destruct (i_uaniso i); [|congruence].
  destruct (group_is_group s g Hg) as [Gr _]. assert (Gp : (0 < length (g_ops g))%nat) by (destruct Gr as [_ _ J _ _]; destruct (g_ops g); [contradiction|cbn; lia]).
  destruct (group_atoms_missing g (mu0 * match c_formula_units c with Some f => f | None => 1 end) (c_mass_norm c) (map with_occ pre ++ map with_occ [i]) (with_occ j) Gp) as (e & E').
  - apply in_or_app. left. apply in_map. exact I.
  - exact Hj.
  - cbn [map] in E'. congruence.
Qed.
Print Assumptions C56_uaniso_missing.

(** C56.  Without a lattice, or with a magnetic unit cell, no material can be built. *)
Theorem C56_unbuildable : forall c m, c_lattice c = None \/ c_magnetic c = true \/ (c_mass_norm c = None /\ c_composition c <> [] /\ c_group c = None) -> make_material c <> Ok m.
Proof.
  intros c m H E. unfold make_material in E. destruct (mu_cell (c_composition c)) as [mu0|]; [|discriminate]. cbn [bind] in E.
  destruct H as [H|[H|(H & N & Gn)]].
  - rewrite H in E. destruct (match c_group c with Some s => _ | None => _ end); [|discriminate]. cbn [bind] in E. destruct (c_magnetic c); discriminate.
  - rewrite H in E. destruct (match c_group c with Some s => _ | None => _ end); discriminate.
  - rewrite H, Gn in E. destruct (c_composition c) as [|i r]; [congruence|]. cbn [map plain_atoms] in E. unfold atom_of in E. unfold get at 1 in E.
    destruct (i_occ _); discriminate.
Qed.
Print Assumptions C56_unbuildable.

(** C56.  A concrete material: aluminium on the screw axis of P 2_1, used below and for C47. *)
Definition p21 : crystal := mkC None [mkItem "Al" (V 0 0 0) None None None] (Some (mkL 4 4 4 90 90 90)) (Some 2) (Some (SInt 4)) (Some false) false.
Definition ops_of (s : symbol_arg) : list op := match space_group s with Ok g => g_ops g | Err _ => [] end.
Definition screw : op := mkOp (-1) 0 0 0 1 0 0 0 (-1) 0 (1 # 2) 0.
Lemma p21_ops : ops_of (SInt 4) = [idop; screw].
Proof. vm_compute. reflexivity. Qed.
Lemma p21_group : exists g, space_group (SInt 4) = Ok g /\ g_ops g = [idop; screw].
Proof. assert (E := p21_ops). unfold ops_of in E. destruct (space_group (SInt 4)) as [g|]; [exists g; auto|discriminate]. Qed.
Lemma p21_built : exists m, make_material p21 = Ok m /\ m_lattice m = mkL 4 4 4 90 90 90 /\ m_wavelength m = 2 /\ map a_pos (m_atoms m) = [V 0 0 0; V 0 (1 / 2) 0].
Proof.
  destruct p21_group as (g & Hg & Ho).
  assert (B : exists m, make_material p21 = Ok m /\ m_lattice m = mkL 4 4 4 90 90 90 /\ m_wavelength m = 2).
  { unfold make_material, p21. cbn [c_composition c_formula_units c_group c_mass_norm c_magnetic c_lattice c_wavelength]. rewrite Hg.
    destruct (mu_cell _) as [x|] eqn:M; [|discriminate M]. cbn [bind map group_atoms last]. unfold symmetrize_real. rewrite Ho. cbn [map map_res]. unfold atom_of, get.
    cbn [with_occ with_uiso set_uaniso has_uaniso i_ion i_pos i_occ i_uiso i_uaniso bind].
    assert (Z : forall p y, exists a, make_atom "Al" p 1 y false 0 zero3 = Ok a) by (intros; eexists; vm_compute; reflexivity).
    destruct (Z (apply_real idop (V 0 0 0)) (x * 1)) as (a1 & ->). destruct (Z (apply_real screw (V 0 0 0)) (x * 1)) as (a2 & ->). cbn [bind app]. eexists. split; [reflexivity|]. split; reflexivity. }
  destruct B as (m & Hm & Hl & Hw). exists m. do 3 (split; auto). destruct (C56_positions p21 m (SInt 4) g Hm eq_refl Hg) as [P _]. rewrite P, Ho. unfold p21. cbn [c_composition flat_map map i_pos app].
  f_equal; [|f_equal]; apply v3_eq; unfold apply_real, StructModel.rot, tr, idop, screw, vadd, mv, Q2R; cbn; lra.
Qed.
(** The hypotheses of the space-group theorems of C47 hold of it: (0 1 0) is defined, and absent. *)
Example C47_space_group_ex : exists m g F, make_material p21 = Ok m /\ space_group (SInt 4) = Ok g /\ In screw (g_ops g) /\ Forall rigid_item (c_composition p21) /\
  integral (V 0 1 0) /\ mv (mT (StructModel.rot screw)) (V 0 1 0) = V 0 1 0 /\ (forall n, dot (V 0 1 0) (tr screw) <> IZR n) /\ calc_nuc_str_fac m (V 0 1 0) = Some F.
Proof.
  destruct p21_built as (m & Hm & Hl & Hw & Hp). destruct p21_group as (g & Hg & Ho).
  assert (D : calc_nuc_str_fac m (V 0 1 0) <> None).
  { assert (C : cell (mkL 4 4 4 90 90 90)) by (apply cube_cell; lra). apply C47_defined; rewrite ?Hl, ?Hw; auto; try lra. intros a I.
    assert (J := in_map a_pos _ _ I). rewrite Hp in J. destruct J as [J|[J|[]]]; rewrite <- J; [now left|right].
    rewrite (cube_d 4 _ (1 / 2)) by (try lra; unfold dot; cbn; field). lra. }
  destruct (calc_nuc_str_fac m (V 0 1 0)) as [F|] eqn:E; [|congruence]. exists m, g, F. split; auto. split; auto. split; [rewrite Ho; cbn; auto|].
  split; [repeat constructor; cbn; auto|]. split; [now exists 0%Z, 1%Z, 0%Z|]. split; [apply v3_eq; unfold mT, StructModel.rot, screw, mv; cbn; lra|]. split; auto.
  intros n J. unfold dot, tr, screw, Q2R in J. cbn in J. assert (K : 1 = 2 * IZR n) by lra. rewrite <- mult_IZR in K. apply eq_IZR in K. lia.
Qed.
(** C47/C56.  An atom on a special position is counted once per operation that fixes it: aluminium at the
    origin of P -1 gives two atoms at one place, and twice the scattering amplitude of the one atom there. *)
Theorem C56_special_position_refuted : exists c m, make_material c = Ok m /\ c_mass_norm c = Some false /\ length (c_composition c) = 1%nat /\
  ~ NoDup (map a_pos (m_atoms m)) /\
  exists a, m_atoms m = [a; a] /\ forall h, calc_nuc_str_fac m h = Some (cscal 2 (a_b a)).
Proof.
  assert (Eo : ops_of (SInt 2) = [idop; mkOp (-1) 0 0 0 (-1) 0 0 0 (-1) 0 0 0]) by (vm_compute; reflexivity).
  unfold ops_of in Eo. destruct (space_group (SInt 2)) as [g|] eqn:Hg; [|discriminate].
  set (c := mkC None [mkItem "Al" (V 0 0 0) None None None] (Some (mkL 4 4 4 90 90 90)) (Some 2) (Some (SInt 2)) (Some false) false).
  destruct (make_atom "Al" (V 0 0 0) 1 0 false 0 zero3) as [a|] eqn:A; [|discriminate A].
  assert (B : exists m, make_material c = Ok m /\ m_lattice m = mkL 4 4 4 90 90 90 /\ m_wavelength m = 2 /\ m_atoms m = [a; a]).
  { unfold make_material, c. cbn [c_composition c_formula_units c_group c_mass_norm c_magnetic c_lattice c_wavelength]. rewrite Hg.
    destruct (mu_cell _) as [x|] eqn:M; [|discriminate M]. cbn [bind map group_atoms last]. unfold symmetrize_real. rewrite Eo. cbn [map map_res]. unfold atom_of, get.
    cbn [with_occ with_uiso set_uaniso has_uaniso i_ion i_pos i_occ i_uiso i_uaniso bind].
    replace (apply_real idop (V 0 0 0)) with (V 0 0 0) by (apply v3_eq; unfold apply_real, StructModel.rot, tr, idop, vadd, mv, Q2R; cbn; lra).
    match goal with |- context [apply_real ?o (V 0 0 0)] => replace (apply_real o (V 0 0 0)) with (V 0 0 0) by (apply v3_eq; unfold apply_real, StructModel.rot, tr, vadd, mv, Q2R; cbn; lra) end.
    assert (Z : forall y, make_atom "Al" (V 0 0 0) 1 y false 0 zero3 = Ok a) by (intros y; rewrite <- A; reflexivity).
    rewrite !Z. cbn [bind app]. eexists. split; [reflexivity|]. auto. }
  destruct B as (m & Hm & Hl & Hw & Ha). exists c, m. do 3 (split; auto). split.
  - rewrite Ha. cbn [map]. intros N. inversion N as [|? ? N1 _]. apply N1. now left.
  - exists a. split; auto. intros h. unfold calc_nuc_str_fac. rewrite Hl, Hw, Ha. assert (Fa := make_atom_fields _ _ _ _ _ _ _ _ A). destruct Fa as (Pa & Oa & Ua & Va & _).
    assert (Vs : visible (mkL 4 4 4 90 90 90) 2 a) by (apply visible_iff; [apply cube_cell; lra|lra|now left]).
    apply nuc_sum_iff. split; auto. cbn [map csum]. unfold term. rewrite dwt_rigid by (auto; split; auto). rewrite Pa, Oa.
    replace (2 * PI * dot h (V 0 0 0)) with 0 by (unfold dot; cbn; ring). unfold cis. rewrite cos_0, sin_0. apply cx_eq; unfold cadd, cscal, cmul, c0; cbn [fst snd]; ring.
Qed.
Print Assumptions C56_special_position_refuted.

(** ** C57: cross sections *)
Lemma xs_checked : forallb (fun s => match mass_of (s_ion s), s_b s with
  | Some _, RealLength _ | Some _, ComplexLength _ _ =>
      match s_coh s, s_inc s, s_abs s with Some x, Some y, Some z => Qle_bool 0 x && Qle_bool 0 y && Qle_bool 0 z && negb (Qle_bool (x + y + z) 0) | _, _, _ => false end
  | _, _ => true end) scattering_table = true.
Proof. vm_compute. reflexivity. Qed.
Definition measured (a : atom) : Prop := exists x y z, a_coh a = Some x /\ a_inc a = Some y /\ a_abs a = Some z /\ 0 <= x /\ 0 <= y /\ 0 <= z /\ 0 < x + y + z.
Lemma Q2R_nonneg q : Qle_bool 0 q = true -> 0 <= Q2R q.
Proof. intros H. apply Qle_bool_iff, Qle_Rle in H. unfold Q2R at 1 in H. cbn in H. lra. Qed.
Lemma make_atom_measured ion p occ mc mn u ua a : in_periodic_table ion -> make_atom ion p occ mc mn u ua = Ok a -> measured a.
Proof.
  intros P H. apply mass_of_iff in P. unfold make_atom in H. destruct (scatterer_of ion) as [s|] eqn:S; [|discriminate]. apply scatterer_inv in S. destruct S as [I <-].
  assert (T := xs_checked). rewrite forallb_forall in T. specialize (T s I). cbv beta in T. destruct (mass_of (s_ion s)) as [m|]; [|congruence].
  destruct (s_b s); [destruct mn; discriminate| |];
  (destruct (s_coh s) as [x|]; [|discriminate]; destruct (s_inc s) as [y|]; [|discriminate]; destruct (s_abs s) as [z|]; [|discriminate];
   apply andb_prop in T; destruct T as [T T4]; apply andb_prop in T; destruct T as [T T3]; apply andb_prop in T; destruct T as [T1 T2];
   apply Q2R_nonneg in T1, T2, T3; apply negb_true_iff in T4;
   assert (T5 : 0 < Q2R x + Q2R y + Q2R z) by (rewrite <- !Q2R_plus; destruct (Qlt_le_dec 0 (x + y + z)) as [L|L]; [apply Qlt_Rlt in L; unfold Q2R at 1 in L; cbn in L; lra|apply Qle_bool_iff in L; congruence]);
   destruct mn; cbn [bind] in H; injection H as <-; exists (Q2R x), (Q2R y), (Q2R z); cbn [a_coh a_inc a_abs opt_R option_map]; auto 10).
Qed.
(** All atoms of a material come from its composition. *)
Lemma material_atoms c m : make_material c = Ok m -> Forall (fun a => exists i mc mn u ua, In i (c_composition c) /\
  make_atom (i_ion i) (a_pos a) (match i_occ i with Some o => o | None => 1 end) mc mn u ua = Ok a) (m_atoms m) /\
  (forall i, In i (c_composition c) -> in_periodic_table (i_ion i)) /\ (c_composition c <> [] -> m_atoms m <> []) /\ mu_cell (c_composition c) = Ok (mu m).
Proof.
  intros H. assert (H0 := H). unfold make_material in H. destruct (mu_cell (c_composition c)) as [mu0|] eqn:M; [|discriminate]. cbn [bind] in H.
  assert (A : forall i, In i (c_composition c) -> in_periodic_table (i_ion i)) by (apply mu_cell_ok; eauto).
  assert (B : forall mc mn i p a, atom_of mc mn i p = Ok a -> exists mn u ua occ, i_occ i = Some occ /\ make_atom (i_ion i) (a_pos a) occ mc mn u ua = Ok a).
  { intros mc mn i p a E. unfold atom_of, get in E. destruct (i_occ i) as [o|]; [|discriminate]. destruct mn as [mn|]; [|discriminate]. destruct (i_uiso i) as [u|]; [|discriminate].
    destruct (i_uaniso i) as [ua|]; [|discriminate]. cbn [bind] in E. assert (E' := E). apply make_atom_fields in E'. destruct E' as (-> & _). eauto 8. }
  destruct (match c_group c with Some s => _ | None => _ end) as [atoms|] eqn:E; [|discriminate]. cbn [bind] in H. destruct (c_magnetic c); [discriminate|].
  destruct (c_lattice c) as [l|]; [|discriminate]. injection H as <-. cbn [m_atoms mu]. destruct (c_group c) as [s|] eqn:Gs.
  - destruct (space_group s) as [g|] eqn:Hg; [|discriminate]. cbn [bind] in E. assert (E' := E). apply group_atoms_spec in E. destruct E as [P F]. split; [|split; [exact A|split; [|reflexivity]]].
    + eapply Forall_impl; [|exact F]. intros a (i & I & J). apply in_map_iff in I. destruct I as (i0 & <- & I0). apply B in J. destruct J as (mn & u & ua & occ & O & J).
      exists i0. do 4 eexists. split; [exact I0|]. assert (occ = match i_occ i0 with Some o => o | None => 1 end) by (unfold completed in O; destruct (has_uaniso _); cbn in O; congruence). subst occ.
      unfold completed in J. destruct (has_uaniso _); exact J.
    + intros N Z. subst atoms. cbn [map] in P. destruct (c_composition c) as [|i r]; [congruence|]. cbn [map flat_map] in P. destruct (group_is_group s g Hg) as [Gr _]. destruct Gr as [_ _ J _ _].
      unfold symmetrize_real in P. destruct (g_ops g); [contradiction|discriminate].
  - split; [|split; [exact A|split; [|reflexivity]]].
    + clear - E B. revert atoms E. induction (c_composition c) as [|i r IH]; intros atoms E; cbn [map plain_atoms] in E; [injection E as <-; constructor|].
      destruct (atom_of _ _ _ _) as [a|] eqn:A; [|discriminate]. cbn [bind] in E. destruct (plain_atoms _ _ (map with_occ r)) as [at_|]; [|discriminate]. cbn [bind] in E. injection E as <-.
      constructor.
      * apply B in A. destruct A as (mn & u & ua & occ & O & J). exists i. do 4 eexists. split; [now left|]. destruct i as [ion pos oc ui uan]. cbn [i_occ i_ion] in *.
        unfold with_occ, with_uiso, with_uaniso, set_uaniso in *. cbn [i_ion i_pos i_occ i_uiso i_uaniso] in *. destruct uan; cbn [i_occ i_ion] in *; injection O as <-; exact J.
      * eapply Forall_impl; [|apply IH; reflexivity]. intros x (j & mc & mn & u & ua & J & K). exists j, mc, mn, u, ua. split; [now right|exact K].
    + intros N Z. subst atoms. destruct (c_composition c) as [|i r]; [congruence|]. cbn [map plain_atoms] in E. destruct (atom_of _ _ _ _); [|discriminate]. cbn [bind] in E.
      destruct (plain_atoms _ _ (map with_occ r)); discriminate.
Qed.
Definition osum (f : atom -> R) (l : list atom) : R := fold_right Rplus 0 (map f l).
Definition val (o : option R) : R := match o with Some x => x | None => 0 end.
Lemma sum_res_ok f l : Forall (fun a => f a <> None) l -> sum_res (map f l) = Ok (osum (fun a => val (f a)) l).
Proof. induction 1 as [|a l N _ IH]; cbn [map sum_res]; [reflexivity|]. destruct (f a) as [x|] eqn:E; [|congruence]. rewrite IH. cbn [bind]. unfold osum. cbn [map fold_right]. now rewrite E. Qed.
Lemma osum_nonneg f l : Forall (fun a => 0 <= f a) l -> 0 <= osum f l.
Proof. unfold osum. induction 1; cbn [map fold_right]; lra. Qed.
Lemma volume_pos l : cell l -> 0 < volume l.
Proof. intros C. destruct (cell_facts l C) as (ca & cb & cg & sa & sb & sg & r & F). unfold volume. apply sqrt_lt_R0. apply (det_G_pos l _ _ _ _ _ _ _ F). Qed.

Definition occupied (c : crystal) : Prop := forall i, In i (c_composition c) -> 0 < match i_occ i with Some o => o | None => 1 end.
(** Macroscopic cross section from the stored cross sections: the sum over the atoms per cell volume. *)
Definition sigma (m : material) (energy : R) : R :=
  osum (fun a => a_occ a * (val (a_coh a) + val (a_inc a) + val (a_abs a) * sqrt (253 / 10 / energy))) (m_atoms m) / volume (m_lattice m).
Lemma material_measured c m : make_material c = Ok m -> occupied c -> Forall (fun a => measured a /\ 0 < a_occ a) (m_atoms m).
Proof.
  intros H O. destruct (material_atoms c m H) as (F & P & _). eapply Forall_impl; [|exact F]. intros a (i & mc & mn & u & ua & I & J).
  split; [eapply make_atom_measured; [apply P, I|exact J]|]. apply make_atom_fields in J. destruct J as (_ & -> & _). auto.
Qed.
Lemma sigma_T_val c m energy : make_material c = Ok m -> occupied c -> sigma_T m energy = Ok (sigma m energy).
Proof.
  intros H O. assert (M := material_measured c m H O). unfold sigma_T, sigma. rewrite !sum_res_ok.
  2,3,4: eapply Forall_impl; [|exact M]; intros a [(x & y & z & E1 & E2 & E3 & _) _]; rewrite ?E1, ?E2, ?E3; cbn; discriminate.
  cbn [bind]. do 2 f_equal. clear H. induction (m_atoms m) as [|a l IH]; [unfold osum; cbn; ring|]. inversion M as [|? ? [(x & y & z & E1 & E2 & E3 & _) _] M']; subst.
  unfold osum in *. cbn [map fold_right]. rewrite <- IH by auto. rewrite E1, E2, E3. cbn [omul val]. ring.
Qed.
Lemma sigma_pos c m energy : make_material c = Ok m -> occupied c -> c_composition c <> [] -> cell (m_lattice m) -> 0 < energy -> 0 < sigma m energy.
Proof.
  intros H O N C En. assert (M := material_measured c m H O). destruct (material_atoms c m H) as (_ & _ & Ne & _). specialize (Ne N).
  assert (S : 0 < sqrt (253 / 10 / energy)) by (apply sqrt_lt_R0, Rdiv_lt_0_compat; lra). unfold sigma. apply Rdiv_lt_0_compat; [|now apply volume_pos].
  destruct (m_atoms m) as [|a l]; [congruence|]. inversion M as [|? ? [(x & y & z & E1 & E2 & E3 & X & Y & Z & T) Oa] M']; subst. unfold osum. cbn [map fold_right]. rewrite E1, E2, E3. cbn [val].
  assert (P : 0 < a_occ a * (x + y + z * sqrt (253 / 10 / energy))).
  { apply Rmult_lt_0_compat; auto. destruct (Req_dec z 0); [subst; nra|]. assert (0 < z * sqrt (253 / 10 / energy)) by (apply Rmult_lt_0_compat; lra). lra. }
  assert (Q : 0 <= osum (fun a => a_occ a * (val (a_coh a) + val (a_inc a) + val (a_abs a) * sqrt (253 / 10 / energy))) l).
  { apply osum_nonneg. eapply Forall_impl; [|exact M']. intros b [(x' & y' & z' & F1 & F2 & F3 & X' & Y' & Z' & _) Ob]. rewrite F1, F2, F3. cbn [val].
    apply Rmult_le_pos; [lra|]. assert (0 <= z' * sqrt (253 / 10 / energy)) by (apply Rmult_le_pos; lra). lra. }
  unfold osum in Q. lra.
Qed.
(** C57.  The thickness of every material is a positive number that transmits the asked fraction (Beer-Lambert). *)
Theorem C57_thickness : forall c m energy T, make_material c = Ok m -> occupied c -> c_composition c <> [] -> cell (m_lattice m) -> 0 < energy -> 0 < T < 1 ->
  exists d, calc_optimal_thickness m energy T = Ok d /\ 0 < d /\ exp (- (sigma m energy * d)) = T.
Proof.
  intros c m energy T H O N C En [T0 T1]. assert (S := sigma_pos c m energy H O N C En). exists (- ln T / sigma m energy). unfold calc_optimal_thickness. rewrite (sigma_T_val c m energy H O). cbn [bind].
  split; auto. assert (L : ln T < 0) by (rewrite <- ln_1; apply ln_increasing; auto). split; [apply Rdiv_lt_0_compat; lra|].
  replace (- (sigma m energy * (- ln T / sigma m energy))) with (ln T) by (field; lra). now apply exp_ln.
Qed.
Print Assumptions C57_thickness.
(** C57.  It grows with the energy (less absorption) and shrinks with the transmission asked for. *)
Theorem C57_thickness_monotone : forall c m e1 e2 T1 T2 d1 d2, make_material c = Ok m -> occupied c -> c_composition c <> [] -> cell (m_lattice m) ->
  0 < e1 <= e2 -> 0 < T2 <= T1 -> T1 < 1 -> calc_optimal_thickness m e1 T1 = Ok d1 -> calc_optimal_thickness m e2 T2 = Ok d2 -> d1 <= d2 /\ (T2 < T1 -> d1 < d2).
Proof.
  intros c m e1 e2 T1 T2 d1 d2 H O N C [E1 E2] [T0 T12] T11 H1 H2. assert (S1 := sigma_pos c m e1 H O N C E1). assert (S2 := sigma_pos c m e2 H O N C ltac:(lra)).
  unfold calc_optimal_thickness in *. rewrite (sigma_T_val c m e1 H O) in H1. rewrite (sigma_T_val c m e2 H O) in H2. cbn [bind] in *. injection H1 as <-. injection H2 as <-.
  assert (S : sigma m e2 <= sigma m e1).
  { unfold sigma. apply Rmult_le_compat_r; [left; apply Rinv_0_lt_compat; now apply volume_pos|]. assert (M := material_measured c m H O).
    assert (Q : sqrt (253 / 10 / e2) <= sqrt (253 / 10 / e1)). { apply sqrt_le_1_alt. apply Rmult_le_compat_l; [lra|]. apply Rinv_le_contravar; lra. }
    clear - M Q. induction M as [|a l [(x & y & z & F1 & F2 & F3 & X & Y & Z & _) Ob] _ IH]; unfold osum in *; cbn [map fold_right]; [lra|]. rewrite F1, F2, F3. cbn [val].
    apply Rplus_le_compat; auto. apply Rmult_le_compat_l; [lra|]. apply Rplus_le_compat_l, Rmult_le_compat_l; lra. }
  assert (L1 : ln T1 < 0) by (rewrite <- ln_1; apply ln_increasing; lra).
  assert (L : ln T2 <= ln T1) by (destruct (Req_dec T1 T2) as [->|]; [lra|left; apply ln_increasing; lra]).
  assert (I1 : 0 < / sigma m e1) by now apply Rinv_0_lt_compat. assert (I2 : / sigma m e1 <= / sigma m e2) by now apply Rinv_le_contravar.
  unfold Rdiv. split; [apply Rmult_le_compat; lra|]. intros Ts. assert (Ls : ln T2 < ln T1) by (apply ln_increasing; lra).
  apply Rlt_le_trans with (- ln T2 * / sigma m e1); [apply Rmult_lt_compat_r; lra|apply Rmult_le_compat_l; lra].
Qed.
Print Assumptions C57_thickness_monotone.

(** C57.  total_scattering_cross_section ignores occupancies. *)
Definition with_occupancy (f : atom -> R) (a : atom) : atom := mkAtom (a_ion a) (a_pos a) (f a) (a_b a) (a_uiso a) (a_uaniso a) (a_coh a) (a_inc a) (a_abs a).
Theorem C57_total_ignores_occupancy : forall m f, total_scattering_cross_section (mkMat (mu m) (m_cell m) (map (with_occupancy f) (m_atoms m)) (m_wavelength m) (m_lattice m)) = total_scattering_cross_section m.
Proof. intros. unfold total_scattering_cross_section. cbn [m_atoms]. now rewrite map_map. Qed.
Print Assumptions C57_total_ignores_occupancy.
Theorem C57_total : forall c m, make_material c = Ok m -> exists t, total_scattering_cross_section m = Ok t /\ t = osum (fun a => val (a_coh a) + val (a_inc a)) (m_atoms m) /\ 0 <= t.
Proof.
  intros c m H. destruct (material_atoms c m H) as (F & P & _).
  assert (M : Forall measured (m_atoms m)) by (eapply Forall_impl; [|exact F]; intros a (i & mc & mn & u & ua & I & J); eapply make_atom_measured; [apply P, I|exact J]).
  eexists. split; [unfold total_scattering_cross_section; apply sum_res_ok; eapply Forall_impl; [|exact M]; intros a (x & y & z & -> & -> & _); cbn; discriminate|]. split.
  - clear - M. induction M as [|a l (x & y & z & E1 & E2 & _) _ IH]; [reflexivity|]. unfold osum in *. cbn [map fold_right]. rewrite IH, E1, E2. reflexivity.
  - apply osum_nonneg. eapply Forall_impl; [|exact M]. intros a (x & y & z & -> & -> & _ & X & Y & _). cbn. lra.
Qed.
Print Assumptions C57_total.

(** C57.  N_atoms is the number of composition units in the mass: one mole of the listed composition counts as
    Avogadro's number whatever its atoms are, and whatever the space group multiplies it by. *)
Definition molar_mass (c : crystal) : R := fold_right Rplus 0 (map (fun i => match mass_of (i_ion i) with Some x => Q2R x | None => 0 end * match i_occ i with Some o => o | None => 1 end) (c_composition c)).
Lemma masses_checked : forallb (fun p => negb (Qle_bool (snd p) 0)) mass_table = true.
Proof. vm_compute. reflexivity. Qed.
Lemma mass_pos ion x : mass_of ion = Some x -> 0 < Q2R x.
Proof.
  unfold mass_of. destruct (find _ mass_table) as [[k q]|] eqn:E; [|discriminate]. cbn. intros J. injection J as <-. apply find_some in E. destruct E as [I _].
  assert (T := masses_checked). rewrite forallb_forall in T. specialize (T _ I). cbn [snd] in T. apply negb_true_iff in T.
  destruct (Qlt_le_dec 0 q) as [L|L]; [apply Qlt_Rlt in L; unfold Q2R at 1 in L; cbn in L; lra|apply Qle_bool_iff in L; congruence].
Qed.
Theorem C57_number : forall c m mass, make_material c = Ok m -> occupied c -> c_composition c <> [] ->
  0 < molar_mass c /\ N_atoms m mass = 6022140857 * 10 ^ 14 * (mass / molar_mass c).
Proof.
  intros c m mass H O N. destruct (material_atoms c m H) as (_ & _ & _ & M).
  assert (E : mu m = molar_mass c).
  { clear - M. unfold molar_mass. revert M. generalize (mu m). induction (c_composition c) as [|i r IH]; intros x M; cbn [mu_cell] in M; [injection M as <-; reflexivity|].
    cbn [map fold_right]. destruct (mass_of (i_ion i)) as [q|]; [|discriminate]. destruct (mu_cell r) as [y|]; [|discriminate]. cbn [bind] in M. injection M as <-. rewrite (IH y) by reflexivity. reflexivity. }
  assert (A : forall i, In i (c_composition c) -> in_periodic_table (i_ion i)) by (apply mu_cell_ok; eauto).
  assert (P : 0 < molar_mass c).
  { clear - A N O. unfold occupied in O. unfold molar_mass. induction (c_composition c) as [|i r IH]; [congruence|]. cbn [map fold_right].
    assert (Pi : 0 < match mass_of (i_ion i) with Some x => Q2R x | None => 0 end * match i_occ i with Some o => o | None => 1 end).
    { assert (X := A i (or_introl eq_refl)). apply mass_of_iff in X. destruct (mass_of (i_ion i)) as [q|] eqn:Eq; [|congruence]. apply mass_pos in Eq. apply Rmult_lt_0_compat; auto. apply O. now left. }
    destruct r as [|j r']; [cbn; lra|]. assert (Q : 0 < fold_right Rplus 0 (map (fun i => match mass_of (i_ion i) with Some x => Q2R x | None => 0 end * match i_occ i with Some o => o | None => 1 end) (j :: r'))).
    { apply IH; [intros k K; apply O; right; auto|congruence|intros; apply A; right; auto]. } lra. }
  split; auto. unfold N_atoms, avogadro. rewrite E. field. lra.
Qed.
Print Assumptions C57_number.

(** C57.  The incoherent elastic cross section: defined where the structure factor is, proportional to the mass,
    and without displacements the sum of the incoherent cross sections over 4 pi, occupancies ignored. *)
Theorem C57_incoherent : forall c m, make_material c = Ok m -> cell (m_lattice m) -> 0 < m_wavelength m ->
  (forall a, In a (m_atoms m) -> a_pos a = V 0 0 0 \/ m_wavelength m / 2 <= get_d_spacing (m_lattice m) (a_pos a)) ->
  exists x, calc_incoh_elas_xs m None = Ok (Some x) /\ 0 <= x /\ (forall g, calc_incoh_elas_xs m (Some g) = Ok (Some (N_atoms m g * x))) /\
  (Forall (fun a => a_uiso a = 0) (m_atoms m) -> x = osum (fun a => val (a_inc a)) (m_atoms m) / (4 * PI)).
Proof.
  intros c m H C W D. destruct (material_atoms c m H) as (F & P & _).
  assert (M : Forall measured (m_atoms m)) by (eapply Forall_impl; [|exact F]; intros a (i & mc & mn & u & ua & I & J); eapply make_atom_measured; [apply P, I|exact J]).
  assert (X : exists s, incoh_sum (m_lattice m) (m_wavelength m) (m_atoms m) = Ok (Some s) /\ 0 <= s /\ (Forall (fun a => a_uiso a = 0) (m_atoms m) -> s = osum (fun a => val (a_inc a)) (m_atoms m))).
  { clear - M D C W. induction (m_atoms m) as [|a l IH]; cbn [incoh_sum]; [exists 0; split; [reflexivity|split; [lra|reflexivity]]|].
    inversion M as [|? ? (x & y & z & _ & E2 & _ & _ & Y & _) M']; subst. rewrite E2. destruct (IH (fun b J => D b (or_intror J)) M') as (s & E & S & U). rewrite E. cbn [bind].
    destruct (Req_EM_T (m_wavelength m) 0); [lra|]. assert (Va : visible (m_lattice m) (m_wavelength m) a) by (apply visible_iff; auto; apply D; now left).
    unfold visible, debye_waller in Va. destruct (Req_EM_T (m_wavelength m) 0); [lra|]. destruct (two_theta_np _ _ _) as [t|]; [|congruence].
    eexists. split; [reflexivity|]. split; [apply Rplus_le_le_0_compat; auto; apply Rmult_le_pos; auto; left; apply exp_pos|].
    intros Z. inversion Z; subst. unfold osum in *. cbn [map fold_right]. rewrite <- U by auto. rewrite H1, E2. cbn [val].
    replace (- 8 * PI ^ 2 * 0 * sin (rad (t / 2)) ^ 2 / m_wavelength m ^ 2) with 0 by (unfold Rdiv; ring). rewrite exp_0. ring. }
  destruct X as (s & E & S & U). assert (Pi := PI_RGT_0). exists (s / (4 * PI)). unfold calc_incoh_elas_xs. rewrite E. cbn [bind]. split; auto. split; [apply Rmult_le_pos; auto; left; apply Rinv_0_lt_compat; lra|].
  split; [intros g; do 2 f_equal; field; lra|]. intros Z. now rewrite U.
Qed.
Print Assumptions C57_incoherent.
Example C57_ex : exists m, make_material p21 = Ok m /\ occupied p21 /\ c_composition p21 <> [] /\ cell (m_lattice m) /\ 0 < m_wavelength m /\
  (forall a, In a (m_atoms m) -> a_pos a = V 0 0 0 \/ m_wavelength m / 2 <= get_d_spacing (m_lattice m) (a_pos a)).
Proof.
  destruct p21_built as (m & Hm & Hl & Hw & Hp). exists m. split; auto. split; [intros i [<-|[]]; cbn; lra|]. split; [discriminate|]. rewrite Hl, Hw. split; [apply cube_cell; lra|]. split; [lra|].
  intros a I. assert (J := in_map a_pos _ _ I). rewrite Hp in J. destruct J as [J|[J|[]]]; rewrite <- J; [now left|right].
  rewrite (cube_d 4 _ (1 / 2)) by (try lra; unfold dot; cbn; field). lra.
Qed.

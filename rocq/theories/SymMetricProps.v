(** Space groups and cells: the operations are isometries of the cells of their lattice type (C53); centring
    and point group (C54). *)
From Coq Require Import String Ascii List ZArith QArith Reals Lra Lia Bool.
From Verif Require Import Base SymData SymModel SymProof SymGroup LinAlg LatticeModel LatticeProof LatticeProps.
Import ListNotations.
Local Open Scope Z_scope.

(** ** C53 *)
(** Symmetric 3x3 matrices, by their six entries. *)
Record six (A : Type) := S6 { s11 : A; s22 : A; s33 : A; s12 : A; s13 : A; s23 : A }.
Arguments S6 {A}. Arguments s11 {A}. Arguments s22 {A}. Arguments s33 {A}. Arguments s12 {A}. Arguments s13 {A}. Arguments s23 {A}.
Definition sym (s : six R) : m3 := M (s11 s) (s12 s) (s13 s) (s12 s) (s22 s) (s23 s) (s13 s) (s23 s) (s33 s).
Definition rot (o : op) : m3 :=
  M (IZR (r11 o)) (IZR (r12 o)) (IZR (r13 o)) (IZR (r21 o)) (IZR (r22 o)) (IZR (r23 o)) (IZR (r31 o)) (IZR (r32 o)) (IZR (r33 o)).
Definition keeps (m : m3) (s : six R) : Prop := mmul (mT m) (mmul (sym s) m) = sym s.
(** Integer check: column i of the rotation, form s, column j. *)
Definition zform (s : six Z) (x y z x' y' z' : Z) : Z :=
  x * (s11 s * x' + s12 s * y' + s13 s * z') + y * (s12 s * x' + s22 s * y' + s23 s * z') + z * (s13 s * x' + s23 s * y' + s33 s * z').
Definition zkeeps (o : op) (s : six Z) : bool :=
  (zform s (r11 o) (r21 o) (r31 o) (r11 o) (r21 o) (r31 o) =? s11 s) && (zform s (r12 o) (r22 o) (r32 o) (r12 o) (r22 o) (r32 o) =? s22 s) &&
  (zform s (r13 o) (r23 o) (r33 o) (r13 o) (r23 o) (r33 o) =? s33 s) && (zform s (r11 o) (r21 o) (r31 o) (r12 o) (r22 o) (r32 o) =? s12 s) &&
  (zform s (r11 o) (r21 o) (r31 o) (r13 o) (r23 o) (r33 o) =? s13 s) && (zform s (r12 o) (r22 o) (r32 o) (r13 o) (r23 o) (r33 o) =? s23 s).
Definition up (s : six Z) : six R := S6 (IZR (s11 s)) (IZR (s22 s)) (IZR (s33 s)) (IZR (s12 s)) (IZR (s13 s)) (IZR (s23 s)).
Lemma zkeeps_ok o s : zkeeps o s = true -> keeps (rot o) (up s).
Proof.
  unfold zkeeps, zform. rewrite !andb_true_iff, !Z.eqb_eq. intros (((((A & B) & C) & D) & E) & F).
  destruct o as [a b c d e f g h i ? ? ?], s as [p q r u v w]. cbn [SymModel.r11 SymModel.r12 SymModel.r13 SymModel.r21 SymModel.r22 SymModel.r23 SymModel.r31 SymModel.r32 SymModel.r33 s11 s22 s33 s12 s13 s23] in *.
  apply (f_equal IZR) in A, B, C, D, E, F. repeat rewrite ?plus_IZR, ?mult_IZR in *.
  unfold keeps, sym, rot, up. apply m3_eq; cbn [mmul mT m11 m12 m13 m21 m22 m23 m31 m32 m33 SymModel.r11 SymModel.r12 SymModel.r13 SymModel.r21 SymModel.r22 SymModel.r23 SymModel.r31 SymModel.r32 SymModel.r33 s11 s22 s33 s12 s13 s23];
    (etransitivity; [|first [exact A|exact B|exact C|exact D|exact E|exact F]]); ring.
Qed.
Definition comb (k : R) (s t : six R) : six R :=
  S6 (k * s11 s + s11 t)%R (k * s22 s + s22 t)%R (k * s33 s + s33 t)%R (k * s12 s + s12 t)%R (k * s13 s + s13 t)%R (k * s23 s + s23 t)%R.
Definition zero6 : six R := S6 0%R 0%R 0%R 0%R 0%R 0%R.
Lemma keeps_zero m : keeps m zero6.
Proof. unfold keeps. apply m3_eq; cbn; ring. Qed.
Lemma keeps_comb m k s t : keeps m s -> keeps m t -> keeps m (comb k s t).
Proof.
  unfold keeps. intros A B.
  assert (L : mmul (mT m) (mmul (sym (comb k s t)) m) =
    M (k * m11 (mmul (mT m) (mmul (sym s) m)) + m11 (mmul (mT m) (mmul (sym t) m))) (k * m12 (mmul (mT m) (mmul (sym s) m)) + m12 (mmul (mT m) (mmul (sym t) m)))
      (k * m13 (mmul (mT m) (mmul (sym s) m)) + m13 (mmul (mT m) (mmul (sym t) m))) (k * m21 (mmul (mT m) (mmul (sym s) m)) + m21 (mmul (mT m) (mmul (sym t) m)))
      (k * m22 (mmul (mT m) (mmul (sym s) m)) + m22 (mmul (mT m) (mmul (sym t) m))) (k * m23 (mmul (mT m) (mmul (sym s) m)) + m23 (mmul (mT m) (mmul (sym t) m)))
      (k * m31 (mmul (mT m) (mmul (sym s) m)) + m31 (mmul (mT m) (mmul (sym t) m))) (k * m32 (mmul (mT m) (mmul (sym s) m)) + m32 (mmul (mT m) (mmul (sym t) m)))
      (k * m33 (mmul (mT m) (mmul (sym s) m)) + m33 (mmul (mT m) (mmul (sym t) m)))).
  { apply m3_eq; cbn; ring. }
  rewrite L, A, B. reflexivity.
Qed.

(** The cells of a lattice type, in the axes the table uses. *)
Definition compatible (ty : string) (l : lattice) : Prop :=
  (ty = "triclinic" \/
   (ty = "monoclinic" /\ alpha l = 90 /\ gamma l = 90) \/
   (ty = "orthorhombic" /\ alpha l = 90 /\ beta l = 90 /\ gamma l = 90) \/
   (ty = "tetragonal" /\ alpha l = 90 /\ beta l = 90 /\ gamma l = 90 /\ la l = lb l) \/
   ((ty = "trigonal" \/ ty = "hexagonal") /\ alpha l = 90 /\ beta l = 90 /\ gamma l = 120 /\ la l = lb l) \/
   (ty = "cubic" /\ alpha l = 90 /\ beta l = 90 /\ gamma l = 90 /\ la l = lb l /\ lb l = lc l))%R%string.
(** Integer metrics spanning those cells. *)
Definition spanning (ty : string) : list (six Z) :=
  match ty with
  | "triclinic" => [S6 1 0 0 0 0 0; S6 0 1 0 0 0 0; S6 0 0 1 0 0 0; S6 0 0 0 1 0 0; S6 0 0 0 0 1 0; S6 0 0 0 0 0 1]
  | "monoclinic" => [S6 1 0 0 0 0 0; S6 0 1 0 0 0 0; S6 0 0 1 0 0 0; S6 0 0 0 0 1 0]
  | "orthorhombic" => [S6 1 0 0 0 0 0; S6 0 1 0 0 0 0; S6 0 0 1 0 0 0]
  | "tetragonal" => [S6 1 1 0 0 0 0; S6 0 0 1 0 0 0]
  | "trigonal" | "hexagonal" => [S6 2 2 0 (-1) 0 0; S6 0 0 1 0 0 0]
  | "cubic" => [S6 1 1 1 0 0 0]
  | _ => []
  end%string.
Lemma rad120 : rad 120 = (2 * (PI / 3))%R. Proof. unfold rad. field. Qed.
Lemma cos_rad90 : cos (rad 90) = 0%R. Proof. rewrite rad90. apply cos_PI2. Qed.
Lemma cos_rad120 : cos (rad 120) = (-1 / 2)%R. Proof. rewrite rad120, cos_2PI3. reflexivity. Qed.

Fixpoint combs (l : list (R * six Z)) : six R := match l with [] => zero6 | (k, s) :: r => comb k (up s) (combs r) end.
Lemma keeps_combs m l : (forall p, In p l -> keeps m (up (snd p))) -> keeps m (combs l).
Proof.
  induction l as [|[k s] l IH]; intros H; [apply keeps_zero|]. cbn [combs]. apply keeps_comb; [apply (H (k, s)); now left|].
  apply IH. intros; apply H; now right.
Qed.
Ltac span := split; [reflexivity|]; unfold sym, combs, comb, up, zero6; apply m3_eq; cbn [combine m11 m12 m13 m21 m22 m23 m31 m32 m33 s11 s22 s33 s12 s13 s23]; field.
Lemma metric_spanned ty l : compatible ty l -> exists ks, length ks = length (spanning ty) /\ G l = sym (combs (combine ks (spanning ty))).
Proof.
  intros C. unfold G.
  destruct C as [->|[(-> & -> & ->)|[(-> & -> & -> & ->)|[(-> & -> & -> & -> & ->)|[([->| ->] & -> & -> & -> & ->)|(-> & -> & -> & -> & -> & ->)]]]]];
    unfold spanning; rewrite ?cos_rad90, ?cos_rad120.
  - exists [la l * la l; lb l * lb l; lc l * lc l; la l * lb l * cos (rad (gamma l)); la l * lc l * cos (rad (beta l)); lb l * lc l * cos (rad (alpha l))]%R. span.
  - exists [la l * la l; lb l * lb l; lc l * lc l; la l * lc l * cos (rad (beta l))]%R. span.
  - exists [la l * la l; lb l * lb l; lc l * lc l]%R. span.
  - exists [lb l * lb l; lc l * lc l]%R. span.
  - exists [lb l * lb l / 2; lc l * lc l]%R. span.
  - exists [lb l * lb l / 2; lc l * lc l]%R. span.
  - exists [lc l * lc l]%R. span.
Qed.
Definition zdet (o : op) : Z :=
  r11 o * (r22 o * r33 o - r23 o * r32 o) - r12 o * (r21 o * r33 o - r23 o * r31 o) + r13 o * (r21 o * r32 o - r22 o * r31 o).
Lemma table_metric : forallb (fun e =>
  match load (Some (e_key e)) with
  | Ok g => forallb (fun o => forallb (zkeeps o) (spanning (e_type e)) && (Z.abs (zdet o) =? 1)) (g_ops g)
  | Err _ => false end) table = true.
Proof. vm_compute. reflexivity. Qed.
Lemma key_load e : In e table -> space_group (SInt (e_number e)) = load (Some (e_key e)).
Proof. intros I. unfold space_group. rewrite (select_some None (SInt (e_number e)) e) by (auto; reflexivity). reflexivity. Qed.
Lemma det_rot o : det (rot o) = IZR (zdet o).
Proof. unfold det, rot, zdet. cbn [m11 m12 m13 m21 m22 m23 m31 m32 m33]. repeat rewrite ?plus_IZR, ?minus_IZR, ?mult_IZR. reflexivity. Qed.
Lemma op_keeps e g o l : In e table -> space_group (SInt (e_number e)) = Ok g -> In o (g_ops g) -> compatible (e_type e) l ->
  mmul (mT (rot o)) (mmul (G l) (rot o)) = G l /\ (det (rot o) = 1 \/ det (rot o) = -1)%R.
Proof.
  intros Ie Hg Io C. rewrite key_load in Hg by auto. assert (T := table_metric). rewrite forallb_forall in T. specialize (T e Ie). cbv beta in T.
  rewrite Hg in T. rewrite forallb_forall in T. specialize (T o Io). apply andb_prop in T. destruct T as [T D]. apply Z.eqb_eq in D.
  rewrite forallb_forall in T. split.
  - destruct (metric_spanned _ _ C) as (ks & L & ->). apply keeps_combs. intros [k s] I. apply in_combine_r in I. cbn [snd]. apply zkeeps_ok. auto.
  - rewrite det_rot. assert (zdet o = 1 \/ zdet o = -1) as [->| ->] by lia; [left|right]; reflexivity.
Qed.

(** C53.  Every operation of a group is an isometry of every cell of the group's lattice type: it preserves the
    lengths of, and the angles between, all vectors (fractional components); its determinant is 1 or -1. *)
Theorem C53_isometry : forall e g o l, In e table -> space_group (SInt (e_number e)) = Ok g -> In o (g_ops g) -> compatible (e_type e) l ->
  (forall v w, form (G l) (mv (rot o) v) (mv (rot o) w) = form (G l) v w) /\ (det (rot o) = 1 \/ det (rot o) = -1)%R.
Proof.
  intros e g o l Ie Hg Io C. destruct (op_keeps e g o l Ie Hg Io C) as [K D]. split; auto. intros v w. unfold form.
  rewrite <- K at 2. rewrite !mv_mmul, (dot_mv (mT (rot o))). reflexivity.
Qed.
Print Assumptions C53_isometry.

(** C53.  Equivalent positions keep distances: the images of two atoms are as far apart as the atoms. *)
Definition q2v (p : position) : v3 := let '(x, y, z) := p in V (Q2R x) (Q2R y) (Q2R z).
Definition distance (l : lattice) (p q : position) : R := sqrt (form (G l) (vsub (q2v p) (q2v q)) (vsub (q2v p) (q2v q))).
Lemma rowdot_R a b c x y z : Q2R (rowdot a b c x y z) = (IZR a * Q2R x + IZR b * Q2R y + IZR c * Q2R z)%R.
Proof. unfold rowdot. rewrite !Qreals.Q2R_plus, !Qreals.Q2R_mult. unfold inject_Z, Q2R at 1 3 5; cbn [Qnum Qden]. field. Qed.
Lemma apply_R o p q : vsub (q2v (apply o p)) (q2v (apply o q)) = mv (rot o) (vsub (q2v p) (q2v q)).
Proof.
  destruct p as [[x y] z], q as [[x' y'] z']. unfold apply, q2v, vsub, mv, rot. cbn [vx vy vz m11 m12 m13 m21 m22 m23 m31 m32 m33].
  rewrite !Qreals.Q2R_plus, !rowdot_R. apply v3_eq; cbn [vx vy vz]; ring.
Qed.
Theorem C53_distances : forall e g l p q i, In e table -> space_group (SInt (e_number e)) = Ok g -> compatible (e_type e) l ->
  (i < length (g_ops g))%nat ->
  distance l (nth i (symmetrize_position g p) p) (nth i (symmetrize_position g q) q) = distance l p q.
Proof.
  intros e g l p q i Ie Hg C Li. unfold symmetrize_position.
  rewrite (nth_indep _ p (apply (nth i (g_ops g) idop) p)), (nth_indep _ q (apply (nth i (g_ops g) idop) q)) by (now rewrite map_length).
  assert (A : forall p, nth i (map (fun o => apply o p) (g_ops g)) (apply (nth i (g_ops g) idop) p) = apply (nth i (g_ops g) idop) p).
  { intros x. rewrite (nth_indep _ _ (apply idop x)) by (now rewrite map_length). apply (map_nth (fun o => apply o x)). }
  rewrite !A. unfold distance. rewrite apply_R.
  destruct (C53_isometry e g (nth i (g_ops g) idop) l Ie Hg (nth_In _ _ Li) C) as [I _]. now rewrite I.
Qed.
Print Assumptions C53_distances.

(** C53.  Symmetry-equivalent reflections (the row vector hkl times the rotation) have the same d-spacing and |Q|. *)
Theorem C53_reflections : forall e g o l hkl, In e table -> space_group (SInt (e_number e)) = Ok g -> In o (g_ops g) ->
  cell l -> compatible (e_type e) l ->
  get_d_spacing l (mv (mT (rot o)) hkl) = get_d_spacing l hkl /\ get_q l (mv (mT (rot o)) hkl) = get_q l hkl.
Proof.
  intros e g o l hkl Ie Hg Io Cl C. destruct (op_keeps e g o l Ie Hg Io C) as [K D].
  assert (Dp : det (G l) <> 0%R). { destruct (cell_facts l Cl) as (ca & cb & cg & sa & sb & sg & r & F). assert (P := det_G_pos _ _ _ _ _ _ _ _ F). lra. }
  assert (DT : det (mT (rot o)) <> 0%R) by (rewrite det_T; destruct D as [-> | ->]; lra).
  assert (E : mmul (rot o) (mmul (inv (G l)) (mT (rot o))) = inv (G l)).
  { apply inv_unique; auto.
    rewrite <- (mmul_I_l (mmul (G l) _)), <- (inv_l (mT (rot o)) DT), mmul_assoc.
    rewrite <- (mmul_assoc (mT (rot o))), <- (mmul_assoc (mmul (mT (rot o)) (G l))), (mmul_assoc (mT (rot o)) (G l) (rot o)), K.
    rewrite <- (mmul_assoc (G l)), inv_r, mmul_I_l by auto. reflexivity. }
  assert (Eq : form (Gstar l) (mv (mT (rot o)) hkl) (mv (mT (rot o)) hkl) = form (Gstar l) hkl hkl).
  { unfold Gstar. rewrite !form_mscal. f_equal. unfold form. rewrite <- E at 2. rewrite !mv_mmul, (dot_mv (rot o)). reflexivity. }
  unfold get_q. rewrite !d_form, Eq. auto.
Qed.
Print Assumptions C53_reflections.
Example C53_ex : In (nth 224 table (mkE "" 0 [] 0 "" "" "" "")) table /\ compatible (e_type (nth 224 table (mkE "" 0 [] 0 "" "" "" ""))) (mkL 4 4 4 90 90 90).
Proof. split; [apply nth_In; cbn; lia|]. cbn. unfold compatible. cbn. tauto. Qed.

(** C53, refuted outside the lattice type: a trigonal R group in rhombohedral axes is not a symmetry of the cell. *)
Theorem C53_rhombohedral_refuted : exists e g o hkl, In e table /\ e_type e = "trigonal"%string /\ prefix "R" (e_key e) = true /\
  space_group (SInt (e_number e)) = Ok g /\ In o (g_ops g) /\ cell rhombo /\
  form (G rhombo) (mv (rot o) hkl) (mv (rot o) hkl) <> form (G rhombo) hkl hkl.
Proof.
  exists (nth 145 table (mkE "" 0 [] 0 "" "" "" "")).
  destruct (space_group (SInt 146)) as [g|] eqn:E; [|vm_compute in E; discriminate].
  exists g, (mkOp 0 (-1) 0 1 (-1) 0 0 0 1 0 0 0), (V 0 1 0).
  split; [apply nth_In; cbn; lia|]. split; [reflexivity|]. split; [reflexivity|]. split; [exact E|].
  split; [vm_compute in E; inversion E; cbn; tauto|]. split; [exact C21_ex|].
  unfold form, dot, mv, rot, G, rhombo. cbn [vx vy vz m11 m12 m13 m21 m22 m23 m31 m32 m33 SymModel.r11 SymModel.r12 SymModel.r13 SymModel.r21 SymModel.r22 SymModel.r23 SymModel.r31 SymModel.r32 SymModel.r33 la lb lc alpha beta gamma].
  rewrite rad60, cos_PI3. lra.
Qed.
Print Assumptions C53_rhombohedral_refuted.


(** ** C54 *)
(** The centring translations of a lattice letter (R in obverse hexagonal axes). *)
Definition centring (letter : ascii) : list (Q * Q * Q) :=
  match letter with
  | "P" => [(0, 0, 0)]
  | "A" => [(0, 0, 0); (0, 1 # 2, 1 # 2)]
  | "C" => [(0, 0, 0); (1 # 2, 1 # 2, 0)]
  | "I" => [(0, 0, 0); (1 # 2, 1 # 2, 1 # 2)]
  | "F" => [(0, 0, 0); (0, 1 # 2, 1 # 2); (1 # 2, 0, 1 # 2); (1 # 2, 1 # 2, 0)]
  | "R" => [(0, 0, 0); (2 # 3, 1 # 3, 1 # 3); (1 # 3, 2 # 3, 2 # 3)]
  | _ => []
  end%char%Q.
Definition first_letter (s : string) : ascii := match s with String a _ => a | EmptyString => Ascii.zero end.
Definition pure (o : op) : bool := rot_eqb o idop.
Definition trans_eqb (o : op) (t : Q * Q * Q) : bool := let '(x, y, z) := t in (Qeq_bool (t1 o) x && Qeq_bool (t2 o) y && Qeq_bool (t3 o) z)%bool.
Definition centring_ok (e : entry) (ops : list op) : bool :=
  let c := centring (first_letter (e_key e)) in
  let p := filter pure ops in
  (Nat.eqb (length p) (length c) && forallb (fun t => existsb (fun o => trans_eqb o t) p) c && forallb (fun o => existsb (trans_eqb o) c) p)%bool.
Lemma table_centring : forallb (fun e => match load (Some (e_key e)) with Ok g => centring_ok e (g_ops g) | Err _ => false end) table = true.
Proof. vm_compute. reflexivity. Qed.

(** C54.  The pure translations of a group are exactly the centring translations of the first letter of its symbol. *)
Theorem C54_centring : forall e g, In e table -> space_group (SInt (e_number e)) = Ok g ->
  length (filter pure (g_ops g)) = length (centring (first_letter (g_symbol g))) /\
  forall x y z, (exists o, In o (g_ops g) /\ rot o = mI /\ t1 o == x /\ t2 o == y /\ t3 o == z)%Q <->
    (exists x' y' z', In (x', y', z') (centring (first_letter (g_symbol g))) /\ x == x' /\ y == y' /\ z == z')%Q.
Proof.
  intros e g Ie Hg. rewrite key_load in Hg by auto. assert (T := table_centring). rewrite forallb_forall in T. specialize (T e Ie). cbv beta in T.
  rewrite Hg in T. unfold centring_ok in T. apply andb_prop in T. destruct T as [T T3]. apply andb_prop in T. destruct T as [T1 T2].
  apply Nat.eqb_eq in T1.
  assert (Gs : g_symbol g = e_key e). { destruct (entry_group e Ie) as (gens & ops & H & _). rewrite H in Hg. injection Hg as <-. reflexivity. }
  rewrite Gs. split; auto. rewrite forallb_forall in T2, T3. set (c := centring (first_letter (e_key e))) in *. clearbody c.
  assert (P : forall o, pure o = true <-> rot o = mI).
  { intros o. unfold pure, rot_eqb, rot, mI, idop. cbn [SymModel.r11 SymModel.r12 SymModel.r13 SymModel.r21 SymModel.r22 SymModel.r23 SymModel.r31 SymModel.r32 SymModel.r33].
    rewrite !andb_true_iff, !Z.eqb_eq. split.
    - intros ((((((((-> & ->) & ->) & ->) & ->) & ->) & ->) & ->) & ->). reflexivity.
    - intros H. injection H. intros. repeat split; apply eq_IZR; auto. }
  intros x y z. split.
  - intros (o & Io & Ro & E1 & E2 & E3). assert (I : In o (filter pure (g_ops g))) by (apply filter_In; split; [auto|now apply P]).
    specialize (T3 o I). apply existsb_exists in T3. destruct T3 as ([[x' y'] z'] & I' & E). unfold trans_eqb in E.
    rewrite !andb_true_iff, !Qeq_bool_iff in E. destruct E as ((F1 & F2) & F3). exists x', y', z'. split; auto.
    now rewrite <- E1, <- E2, <- E3.
  - intros (x' & y' & z' & I & E1 & E2 & E3). specialize (T2 _ I). apply existsb_exists in T2. destruct T2 as (o & Io & E).
    apply filter_In in Io. destruct Io as [Io Po]. unfold trans_eqb in E. rewrite !andb_true_iff, !Qeq_bool_iff in E. destruct E as ((F1 & F2) & F3).
    exists o. split; auto. split; [now apply P|]. now rewrite E1, E2, E3.
Qed.
Print Assumptions C54_centring.
Example C54_ex : length (centring (first_letter "Fm-3m")) = 4%nat.
Proof. reflexivity. Qed.

(** The kind of a rotation, by determinant and trace: 1 2 3 4 6 -1 m -3 -4 -6. *)
Definition kinds : list (Z * Z) := [(1, 3); (1, -1); (1, 0); (1, 1); (1, 2); (-1, -3); (-1, 1); (-1, 0); (-1, -1); (-1, -2)].
Definition trace (o : op) : Z := r11 o + r22 o + r33 o.
Definition kind_count (ops : list op) (k : Z * Z) : nat := length (filter (fun o => (zdet o =? fst k) && (trace o =? snd k)) ops).
(** The number of rotations of each kind in the crystallographic point groups (International Tables A, 10.1.2). *)
Definition point_groups : list (string * list nat) := [
   ("1", [1; 0; 0; 0; 0; 0; 0; 0; 0; 0]);
   ("-1", [1; 0; 0; 0; 0; 1; 0; 0; 0; 0]);
   ("2", [1; 1; 0; 0; 0; 0; 0; 0; 0; 0]);
   ("m", [1; 0; 0; 0; 0; 0; 1; 0; 0; 0]);
   ("2/m", [1; 1; 0; 0; 0; 1; 1; 0; 0; 0]);
   ("222", [1; 3; 0; 0; 0; 0; 0; 0; 0; 0]);
   ("mm2", [1; 1; 0; 0; 0; 0; 2; 0; 0; 0]);
   ("mmm", [1; 3; 0; 0; 0; 1; 3; 0; 0; 0]);
   ("4", [1; 1; 0; 2; 0; 0; 0; 0; 0; 0]);
   ("-4", [1; 1; 0; 0; 0; 0; 0; 0; 2; 0]);
   ("4/m", [1; 1; 0; 2; 0; 1; 1; 0; 2; 0]);
   ("422", [1; 5; 0; 2; 0; 0; 0; 0; 0; 0]);
   ("4mm", [1; 1; 0; 2; 0; 0; 4; 0; 0; 0]);
   ("-42m", [1; 3; 0; 0; 0; 0; 2; 0; 2; 0]);
   ("-4m2", [1; 3; 0; 0; 0; 0; 2; 0; 2; 0]);
   ("4/mmm", [1; 5; 0; 2; 0; 1; 5; 0; 2; 0]);
   ("3", [1; 0; 2; 0; 0; 0; 0; 0; 0; 0]);
   ("-3", [1; 0; 2; 0; 0; 1; 0; 2; 0; 0]);
   ("312", [1; 3; 2; 0; 0; 0; 0; 0; 0; 0]);
   ("321", [1; 3; 2; 0; 0; 0; 0; 0; 0; 0]);
   ("32", [1; 3; 2; 0; 0; 0; 0; 0; 0; 0]);
   ("3m1", [1; 0; 2; 0; 0; 0; 3; 0; 0; 0]);
   ("31m", [1; 0; 2; 0; 0; 0; 3; 0; 0; 0]);
   ("3m", [1; 0; 2; 0; 0; 0; 3; 0; 0; 0]);
   ("-31m", [1; 3; 2; 0; 0; 1; 3; 2; 0; 0]);
   ("-3m1", [1; 3; 2; 0; 0; 1; 3; 2; 0; 0]);
   ("-3m", [1; 3; 2; 0; 0; 1; 3; 2; 0; 0]);
   ("6", [1; 1; 2; 0; 2; 0; 0; 0; 0; 0]);
   ("-6", [1; 0; 2; 0; 0; 0; 1; 0; 0; 2]);
   ("6/m", [1; 1; 2; 0; 2; 1; 1; 2; 0; 2]);
   ("622", [1; 7; 2; 0; 2; 0; 0; 0; 0; 0]);
   ("6mm", [1; 1; 2; 0; 2; 0; 6; 0; 0; 0]);
   ("-6m2", [1; 3; 2; 0; 0; 0; 4; 0; 0; 2]);
   ("-62m", [1; 3; 2; 0; 0; 0; 4; 0; 0; 2]);
   ("6/mmm", [1; 7; 2; 0; 2; 1; 7; 2; 0; 2]);
   ("23", [1; 3; 8; 0; 0; 0; 0; 0; 0; 0]);
   ("m-3", [1; 3; 8; 0; 0; 1; 3; 8; 0; 0]);
   ("432", [1; 9; 8; 6; 0; 0; 0; 0; 0; 0]);
   ("-43m", [1; 3; 8; 0; 0; 0; 6; 0; 6; 0]);
   ("m-3m", [1; 9; 8; 6; 0; 1; 9; 8; 6; 0])]%string%nat.
Definition class_counts (pg : string) : option (list nat) :=
  match find (fun p => String.eqb (fst p) pg) point_groups with Some p => Some (snd p) | None => None end.
Definition point_group_ok (e : entry) (ops : list op) : bool :=
  match class_counts (e_pg e) with
  | None => false
  | Some c => if list_eq_dec Nat.eq_dec (map (kind_count ops) kinds) (map (Nat.mul (length (centring (first_letter (e_key e))))) c) then Nat.eqb (e_total e) (length (centring (first_letter (e_key e))) * list_sum c) else false
  end.
Lemma table_point_groups : forallb (fun e => match load (Some (e_key e)) with Ok g => point_group_ok e (g_ops g) | Err _ => false end) table = true.
Proof. vm_compute. reflexivity. Qed.
(** C54.  The rotations of a group are those of the point group it reports: as many of each kind, each once per centring translation. *)
Theorem C54_point_group : forall e g, In e table -> space_group (SInt (e_number e)) = Ok g ->
  exists c, class_counts (g_point_group g) = Some c /\
  map (kind_count (g_ops g)) kinds = map (Nat.mul (length (filter pure (g_ops g)))) c /\
  length (g_ops g) = (length (filter pure (g_ops g)) * list_sum c)%nat.
Proof.
  intros e g Ie Hg. destruct (C54_centring e g Ie Hg) as [L _]. rewrite L.
  assert (F := Hg). rewrite key_load in Hg by auto. assert (T := table_point_groups). rewrite forallb_forall in T. specialize (T e Ie). cbv beta in T.
  rewrite Hg in T. unfold point_group_ok in T.
  destruct (entry_group e Ie) as (gens & ops & H & _ & _ & _ & Lo). assert (E : loaded e gens ops = g) by congruence. subst g. cbn [g_point_group g_symbol g_ops loaded] in *.
  destruct (class_counts (e_pg e)) as [c|]; [|discriminate]. exists c. split; auto.
  destruct (list_eq_dec _ _ _) as [K|]; [|discriminate]. split; auto. apply Nat.eqb_eq in T. now rewrite Lo.
Qed.
Print Assumptions C54_point_group.
(** C54.  The lattice type and the first letter follow the number of the group as in International Tables. *)
Definition system (n : Z) : string :=
  if n <=? 2 then "triclinic" else if n <=? 15 then "monoclinic" else if n <=? 74 then "orthorhombic" else if n <=? 142 then "tetragonal"
  else if n <=? 167 then "trigonal" else if n <=? 194 then "hexagonal" else "cubic".
Theorem C54_system : forall e g, In e table -> space_group (SInt (e_number e)) = Ok g ->
  1 <= g_number g <= 230 /\ g_lattice_type g = system (g_number g) /\ forall n, 1 <= n <= 230 -> exists e', In e' table /\ e_number e' = n.
Proof.
  intros e g Ie Hg. rewrite key_load in Hg by auto. destruct (entry_group e Ie) as (gens & ops & H & _). assert (E : loaded e gens ops = g) by congruence. subst g. cbn [g_number g_lattice_type loaded].
  assert (C : forallb (fun e => (1 <=? e_number e) && (e_number e <=? 230) && String.eqb (e_type e) (system (e_number e))) table = true) by (vm_compute; reflexivity).
  rewrite forallb_forall in C. specialize (C e Ie). rewrite !andb_true_iff, !Z.leb_le, String.eqb_eq in C. destruct C as [C1 C2]. repeat split; try tauto.
  intros n Hn. assert (D : forallb (fun k => existsb (fun e => e_number e =? Z.of_nat k) table) (seq 1 230) = true) by (vm_compute; reflexivity).
  rewrite forallb_forall in D. specialize (D (Z.to_nat n)). rewrite Z2Nat.id in D by lia. destruct (proj1 (existsb_exists _ _) (D ltac:(apply in_seq; lia))) as (e' & I & E').
  exists e'. split; auto. now apply Z.eqb_eq.
Qed.
Print Assumptions C54_system.
(** C54.  No two groups have the same operations. *)
Definition subset_b (l m : list op) : bool := forallb (fun o => op_in o m) l.
Definition ops_of (e : entry) : list op := match load (Some (e_key e)) with Ok g => g_ops g | Err _ => [] end.
Definition twins (l : list (nat * list op)) : bool :=
  (fix go l := match l with
   | [] => false
   | (n, o) :: r => if existsb (fun p => if Nat.eqb (fst p) n then subset_b o (snd p) else false) r then true else go r
   end) l.
Lemma table_twins : twins (map (fun e => (e_total e, ops_of e)) table) = false.
Proof. vm_compute. reflexivity. Qed.
Lemma twins_ok l : twins l = false -> forall i j d, (i < j < length l)%nat -> fst (nth i l d) = fst (nth j l d) -> subset_b (snd (nth i l d)) (snd (nth j l d)) = false.
Proof.
  induction l as [|[n o] l IH]; intros T i j d L E; [cbn in L; lia|]. cbn in T.
  destruct (existsb _ l) eqn:X; [discriminate|]. destruct j as [|j]; [lia|]. destruct i as [|i].
  - cbn [nth fst snd] in *. apply Bool.not_true_iff_false. intros S. apply Bool.not_true_iff_false in X. apply X. apply existsb_exists.
    exists (nth j l d). split; [apply nth_In; cbn in L; lia|]. rewrite <- E, Nat.eqb_refl. exact S.
  - cbn [nth] in *. apply IH; auto. cbn in L. lia.
Qed.
Theorem C54_distinct : forall e e' g g', In e table -> In e' table -> e_number e < e_number e' ->
  space_group (SInt (e_number e)) = Ok g -> space_group (SInt (e_number e')) = Ok g' ->
  ~ ((forall o, In o (g_ops g) -> In o (g_ops g')) /\ (forall o, In o (g_ops g') -> In o (g_ops g))).
Proof.
  intros e e' g g' Ie Ie' N H H' [S S'].
  destruct (In_nth table e e Ie) as (i & Li & Ei). destruct (In_nth table e' e Ie') as (j & Lj & Ej).
  rewrite key_load in H by auto. rewrite key_load in H' by auto.
  destruct (entry_group e Ie) as (gens & ops & G1 & _ & _ & I1 & L1). destruct (entry_group e' Ie') as (gens' & ops' & G2 & _ & _ & I2 & L2).
  assert (X : loaded e gens ops = g) by congruence. subst g. assert (X : loaded e' gens' ops' = g') by congruence. subst g'. cbn [g_ops loaded] in *.
  assert (C1 := NoDup_incl_length (gr_nodup _ I1) S). assert (C2 := NoDup_incl_length (gr_nodup _ I2) S').
  set (f := fun e => (e_total e, ops_of e)).
  assert (F : ops_of e = ops) by (unfold ops_of; now rewrite G1). assert (F' : ops_of e' = ops') by (unfold ops_of; now rewrite G2).
  assert (SB : forall a b, (forall o, In o a -> In o b) -> subset_b a b = true).
  { intros a b Hab. apply forallb_forall. intros o Io. apply existsb_exists. exists o. split; auto. apply op_eqb_refl. }
  assert (T := twins_ok _ table_twins). fold f in T.
  assert (Tot : e_total e = e_total e') by lia.
  destruct (Nat.lt_trichotomy i j) as [L|[L|L]].
  - specialize (T i j (f e)). rewrite !map_nth, Ei, Ej, map_length in T. unfold f in T. cbn [fst snd] in T. rewrite F, F', SB in T; auto. discriminate T; auto.
  - subst j. rewrite Ei in Ej. subst. lia.
  - specialize (T j i (f e)). rewrite !map_nth, Ei, Ej, map_length in T. unfold f in T. cbn [fst snd] in T. rewrite F, F', SB in T; auto. discriminate T; auto.
Qed.
Print Assumptions C54_distinct.

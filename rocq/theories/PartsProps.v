(** C95: the rotations and translations of operations. *)
From Coq Require Import String List ZArith QArith Lia.
From Verif Require Import Base SymData SymModel SymProps PartsModel.
Import ListNotations.
Local Open Scope list_scope.

(** * What they are *)
Definition n (z : Z) : arr := Num (inject_Z z).
Definition rot (o : op) : arr := Arr [Arr [n (r11 o); n (r12 o); n (r13 o)]; Arr [n (r21 o); n (r22 o); n (r23 o)]; Arr [n (r31 o); n (r32 o); n (r33 o)]].
Definition trans (o : op) : arr := Arr [Num (t1 o); Num (t2 o); Num (t3 o)].
(** The operations an argument stands for. *)
Inductive stands : given -> list op -> Prop :=
| S_text s o : parse_op s = Ok o -> stands (Text s) [o]
| S_texts l ops : l <> [] -> Forall2 (fun s o => parse_op s = Ok o) l ops -> stands (Texts l) ops
| S_array o : stands (Array (array o)) [o]
| S_arrays ops : ops <> [] -> stands (Arrays (map array ops)) ops.
Lemma map_res_ok {A B} (f : A -> res B) l m : map_res f l = Ok m <-> Forall2 (fun x y => f x = Ok y) l m.
Proof.
  revert m. induction l as [|x l IH]; intros m; cbn [map_res]; [split; [intros H; injection H as <-; constructor|intros H; inversion H; reflexivity]|].
  destruct (f x) as [y|] eqn:E; [|split; [discriminate|intros H; inversion H; congruence]]. destruct (map_res f l) as [k|] eqn:K.
  - split; [intros H; injection H as <-; constructor; [exact E|apply IH; reflexivity]|]. intros H. inversion H as [|? z ? r H1 H2]; subst. apply IH in H2. injection H2 as <-. congruence.
  - split; [discriminate|]. intros H. inversion H as [|? z ? r H1 H2]; subst. apply IH in H2. discriminate H2.
Qed.
Lemma stands_formatted g ops : stands g ops -> formatted g = Ok (map array ops).
Proof.
  intros [s o E|l o N F|o|o N].
  - cbn [formatted]. unfold get_generator_from_str. cbn [map_res]. rewrite E. reflexivity.
  - apply map_res_ok in F. cbn [formatted]. unfold get_generator_from_str. destruct l; [contradiction|]. rewrite F. reflexivity.
  - reflexivity.
  - destruct o; [contradiction|]. reflexivity.
Qed.
Lemma rotation_array o : rotation_part (array o) = Ok (rot o). Proof. reflexivity. Qed.
Lemma translation_array o : translation_part (array o) = Ok (trans o). Proof. reflexivity. Qed.
Lemma parts_map (f : arr -> res arr) (h : op -> arr) ops : (forall o, f (array o) = Ok (h o)) -> map_res f (map array ops) = Ok (map h ops).
Proof. intros H. apply map_res_ok. induction ops; cbn [map]; constructor; auto. Qed.
Theorem C95_parts : forall g ops, stands g ops ->
  (forall o, ops = [o] -> get_rotation g = Ok (One (rot o)) /\ get_translation g = Ok (One (trans o))) /\
  (length ops <> 1%nat -> get_rotation g = Ok (Several (map rot ops)) /\ get_translation g = Ok (Several (map trans ops))).
Proof.
  intros g ops S. apply stands_formatted in S. unfold get_rotation, get_translation. rewrite S. cbn [bind]. rewrite (parts_map _ rot _ rotation_array), (parts_map _ trans _ translation_array). cbn [bind].
  split; [intros o ->; split; reflexivity|]. intros N. destruct ops as [|o [|p ops]]; [split; reflexivity|exfalso; apply N; reflexivity|split; reflexivity].
Qed.
Print Assumptions C95_parts.
Example C95_parts_case : exists a b, stands (Texts ["x,y,z+1/2"; "-y,x-y,z"]%string) [a; b] /\ get_translation (Texts ["x,y,z+1/2"; "-y,x-y,z"]%string) = Ok (Several [Arr [Num 0; Num 0; Num (1 # 2)]; Arr [Num 0; Num 0; Num 0]]).
Proof. eexists. eexists. split; [|reflexivity]. constructor; [discriminate|]. repeat constructor. Qed.
Theorem C95_refused : forall g, (g = Texts [] \/ g = Arrays [] -> get_rotation g = Err IndexError /\ get_translation g = Err IndexError) /\
  (forall l e, (g = Texts l \/ exists s, g = Text s /\ l = [s]) -> l <> [] -> get_generator_from_str l = Err e -> get_rotation g = Err e /\ get_translation g = Err e).
Proof.
  intros g. split; [intros [-> | ->]; split; reflexivity|]. intros l e G N E. assert (formatted g = Err e) as F.
  { destruct G as [->|(s & -> & ->)]; cbn [formatted]; [destruct l; [contradiction|]|]; rewrite E; reflexivity. }
  unfold get_rotation, get_translation. rewrite F. split; reflexivity.
Qed.
Print Assumptions C95_refused.

(** * The operations of a space group as they are kept: one array *)
Definition stack (ops : list op) : given := Array (Arr (map array ops)).
Definition top (o : op) : arr := Arr [row (r11 o) (r12 o) (r13 o) (t1 o); row (r21 o) (r22 o) (r23 o) (t2 o); row (r31 o) (r32 o) (r33 o) (t3 o)].
Lemma firstn_map' {A B} (f : A -> B) k l : firstn k (map f l) = map f (firstn k l).
Proof. revert l. induction k as [|k IH]; intros [|x l]; cbn; [reflexivity..|]. rewrite IH. reflexivity. Qed.
Theorem C95_stack : forall ops,
  get_rotation (stack ops) = Ok (One (Arr (map top (firstn 3 ops)))) /\
  get_translation (stack ops) = Ok (One (Arr (map (fun _ => row 0 0 0 1) (firstn 3 ops)))).
Proof.
  intros ops. unfold get_rotation, get_translation, stack. cbn [formatted bind map_res]. unfold rotation_part, translation_part, part. rewrite !firstn_map'.
  assert (E1 : map_res (fun r => match r with Arr m => Ok (Arr (firstn 3 m)) | Num _ => Err IndexError end) (map array (firstn 3 ops)) = Ok (map top (firstn 3 ops))).
  { apply parts_map. reflexivity. }
  assert (E2 : map_res (fun r => match r with Arr m => match nth_error m 3 with Some x => Ok x | None => Err IndexError end | Num _ => Err IndexError end) (map array (firstn 3 ops)) = Ok (map (fun _ => row 0 0 0 1) (firstn 3 ops))).
  { apply parts_map. reflexivity. }
  rewrite E1, E2. split; reflexivity.
Qed.
Print Assumptions C95_stack.
(** In none of the 230 groups is that the rotations or the translations of its operations, in any arrangement. *)
Theorem C95_kept_array : forall e, In e table -> exists g, space_group (SInt (e_number e)) = Ok g /\ g_ops g <> [] /\
  (forall p, get_rotation (stack (g_ops g)) = Ok p -> p <> Several (map rot (g_ops g)) /\ p <> One (Arr (map rot (g_ops g))) /\ forall o, p <> One (rot o)) /\
  (forall p, get_translation (stack (g_ops g)) = Ok p -> p <> Several (map trans (g_ops g)) /\ p <> One (Arr (map trans (g_ops g))) /\ forall o, p <> One (trans o)).
Proof.
  intros e I. destruct C26_space_groups as [_ H]. destruct (H e I) as (g & G & _ & _ & (_ & Id & _) & _). exists g. split; [exact G|].
  assert (N : g_ops g <> []). { intros E. rewrite E in Id. destruct Id as (o & Io & _). destruct Io. }
  split; [exact N|]. destruct (C95_stack (g_ops g)) as [E1 E2]. rewrite E1, E2. destruct (g_ops g) as [|o ops]; [contradiction|].
  split; intros p E; injection E as <-; (split; [discriminate|]; split; [intros K; injection K; intros; discriminate|]); intros q K; injection K; intros; discriminate.
Qed.
Print Assumptions C95_kept_array.

(** * Images of a position *)
Theorem C95_image : forall o x y z, exists u v w, image o [x; y; z] = Ok [u; v; w] /\
  (u == inject_Z (r11 o) * x + inject_Z (r12 o) * y + inject_Z (r13 o) * z + t1 o)%Q /\
  (v == inject_Z (r21 o) * x + inject_Z (r22 o) * y + inject_Z (r23 o) * z + t2 o)%Q /\
  (w == inject_Z (r31 o) * x + inject_Z (r32 o) * y + inject_Z (r33 o) * z + t3 o)%Q.
Proof. intros o x y z. do 3 eexists. split; [reflexivity|]. cbn [dot_row map combine fold_right]. repeat split; unfold dot_row; cbn; ring. Qed.
Print Assumptions C95_image.

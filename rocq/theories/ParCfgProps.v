(** C70: instruments from par and cfg files. *)
From Coquelicot Require Import Coquelicot.
From Coq Require Import String List ZArith Reals Lra Lia.

From Verif Require Import Base MatInv LinAlg EnergyModel LatticeModel TextModel TasModel HistModel ParCfgModel.
Import ListNotations.
Local Open Scope string_scope.
Local Open Scope R_scope.

Lemma mem_In k l : mem k l = true <-> In k l.
Proof. unfold mem. rewrite existsb_exists. split; [intros (x & I & E); apply String.eqb_eq in E; subst; exact I|intros I; exists k; split; [exact I|apply String.eqb_refl]]. Qed.
(** The names of the par file in the documentation, in lower case, and the one the code needs besides. *)
Definition documented : list string :=
  ["dm"; "da"; "etam"; "etaa"; "etas"; "sm"; "ss"; "sa"; "k"; "alpha1"; "alpha2"; "alpha3"; "alpha4"; "beta1"; "beta2"; "beta3"; "beta4";
   "as"; "bs"; "cs"; "aa"; "bb"; "cc"; "ax"; "ay"; "az"; "bx"; "by"; "bz"; "qx"; "qy"; "qz"; "en"; "dqx"; "dqy"; "dqz"; "de"; "gh"; "gk"; "gl"; "gmod"]%string.
Definition needed : list string :=
  ["sm"; "ss"; "sa"; "kfix"; "alpha1"; "alpha2"; "alpha3"; "alpha4"; "beta1"; "beta2"; "beta3"; "beta4"; "k"; "as"; "bs"; "cs"; "aa"; "bb"; "cc"; "etas";
   "ax"; "ay"; "az"; "bx"; "by"; "bz"; "dm"; "etam"; "da"; "etaa"]%string.
(** What a par file says: its last line with a name counts. *)
Definition says (par : list (string * R)) (k : string) (x : R) : Prop := lookup k par = Some x.

(** A par file that follows the documentation has no line KFIX, and loading it fails whatever the cfg file. *)
Theorem C70_documented : forall num c pl par cfgfile cl,
  read_par num pl = Ok par -> Forall (fun p => In (fst p) documented) par -> read_cfg num cl = Ok cfgfile ->
  load_parcfg num c (Some pl) (Some cl) = Err KeyError.
Proof.
  intros num c pl par cfg cl HP HD HC. unfold load_parcfg. rewrite HP. cbn [bind]. rewrite HC. cbn [bind].
  assert (K : lookup "kfix" par = None).
  { clear HP. induction par as [|(k & x) par IH]; [reflexivity|]. inversion HD as [|? ? H1 H2]; subst. cbn [lookup]. destruct (String.eqb_spec k "kfix") as [->|]; [|apply IH; exact H2].
    exfalso. cbn in H1. repeat (destruct H1 as [H1|H1]; [discriminate H1|]). exact H1. }
  unfold build_instrument, need at 1. cbn [forallb]. rewrite K. destruct (lookup "sm" par), (lookup "ss" par), (lookup "sa" par); reflexivity.
Qed.
Print Assumptions C70_documented.
Example C70_documented_example : exists par, read_par (fun s => if String.eqb s "1.0" then Some 1 else None) ["1.0 %DM"; "1.0 %Etam  comment"]%string = Ok par /\ Forall (fun p => In (fst p) documented) par /\ par = [("etam", 1); ("dm", 1)]%string.
Proof. eexists. split; [reflexivity|]. split; [|reflexivity]. repeat constructor; cbn; tauto. Qed.

(** A name and the value before it can stand on any line; lines without two words are an IndexError, blank lines too. *)
Theorem C70_lines : forall num pl, (exists l, In l pl /\ (List.length (words l) < 2)%nat) -> (forall l v, In l pl -> hd_error (words l) = Some v -> num v <> None) -> read_par num pl = Err IndexError.
Proof.
  intros num pl (l & I & L) H. unfold read_par. enough (E : map_res (par_line num) pl = Err IndexError) by (rewrite E; reflexivity).
  induction pl as [|x pl IH]; [destruct I|]. cbn [map_res]. destruct I as [->|I].
  - unfold par_line. destruct (words l) as [|v [|n w]]; try reflexivity. cbn in L. lia.
  - unfold par_line at 1. destruct (words x) as [|v [|n w]] eqn:W; try reflexivity. assert (Hv := H x v (or_introl eq_refl)). rewrite W in Hv. specialize (Hv eq_refl). destruct (num v); [|contradiction]. cbn [bind]. rewrite IH; [reflexivity|exact I|intros l' v' I'; apply H; right; exact I'].
Qed.
Print Assumptions C70_lines.
Example C70_lines_example : exists l, In l ["1.0 %DM"; ""]%string /\ (List.length (words l) < 2)%nat.
Proof. exists ""%string. split; [cbn; tauto|cbn; lia]. Qed.

(** C70.  The cfg file: one number at the start of every line, the rest of a line is a comment.  The first line without words is an IndexError, the first one that does not start
    with a number a ValueError. *)
Definition starts (num : string -> option R) (l : string) (x : R) : Prop := exists v w, words l = v :: w /\ num v = Some x.
Theorem C70_cfg_lines : forall num,
  (forall cl cfg, read_cfg num cl = Ok cfg <-> Forall2 (starts num) cl cfg) /\
  (forall before l after cfg, Forall2 (starts num) before cfg -> words l = [] -> read_cfg num (List.app before (l :: after)) = Err IndexError) /\
  (forall before l after cfg v w, Forall2 (starts num) before cfg -> words l = v :: w -> num v = None -> read_cfg num (List.app before (l :: after)) = Err ValueError).
Proof.
  intros num. unfold read_cfg. assert (P : forall before after cfg, Forall2 (starts num) before cfg -> map_res (cfg_line num) (List.app before after) = match map_res (cfg_line num) after with Ok r => Ok (List.app cfg r) | Err e => Err e end).
  { intros before after cfg F. induction F as [|l x b c (v & w & W & N) F IH]; [cbn; destruct (map_res _ after); reflexivity|]. cbn [List.app map_res]. unfold cfg_line at 1. rewrite W, N, IH. destruct (map_res _ after); reflexivity. }
  split; [|split].
  - intros cl cfg. split; [|intros F; rewrite <- (app_nil_r cl), (P cl [] cfg F); cbn; rewrite app_nil_r; reflexivity]. revert cfg. induction cl as [|l cl IH]; intros cfg H; [injection H as <-; constructor|]. cbn [map_res] in H. unfold cfg_line at 1 in H.
    destruct (words l) as [|v w] eqn:W; [discriminate|]. destruct (num v) as [x|] eqn:N; [|discriminate]. destruct (map_res _ cl) as [r|]; [|discriminate]. injection H as <-. constructor; [exists v, w; split; assumption|apply IH; reflexivity].
  - intros before l after cfg F W. rewrite (P before (l :: after) cfg F). cbn [map_res]. unfold cfg_line at 1. rewrite W. reflexivity.
  - intros before l after cfg v w F W N. rewrite (P before (l :: after) cfg F). cbn [map_res]. unfold cfg_line at 1. rewrite W, N. reflexivity.
Qed.
Print Assumptions C70_cfg_lines.
Example C70_cfg_lines_example : let num s := if String.eqb s "1.0" then Some 1 else None in Forall2 (starts num) ["1.0  %guide"]%string [1] /\ read_cfg num ["1.0  %guide"; ""; "one"]%string = Err IndexError /\ read_cfg num ["1.0  %guide"; "one"; ""]%string = Err ValueError.
Proof. cbv zeta. split; [|split; reflexivity]. constructor; [|constructor]. do 2 eexists. split; reflexivity. Qed.

(** The result has to do with the files as follows. *)
Definition complete (par : list (string * R)) (P : string -> R) : Prop := forall k, In k needed -> says par k (P k).
(** A radius that belongs to a curvature; that of a flat crystal is the one the calculation uses for crystals without radius, 10 km. *)
Definition curved (x : option R) (k : R) : Prop := (k <> 0 -> exists r, x = Some r /\ r * k = 1) /\ (k = 0 -> x = Some (10 ^ 6)).
Theorem C70_loads : forall num c pl cl par cfg P, read_par num pl = Ok par -> read_cfg num cl = Ok cfg -> complete par P -> (30 <= List.length cfg)%nat -> 
  P "k"%string <> 0 -> P "dm"%string <> 0 -> P "da"%string <> 0 ->
  exists L, load_parcfg num c (Some pl) (Some cl) = Ok L /\
    let t := i_tas (instr L) in let C i := nth i cfg 0 in
    i_lat (instr L) = mkL (P "as") (P "bs") (P "cs") (P "aa") (P "bb") (P "cc") /\ i_o1 (instr L) = V (P "ax") (P "ay") (P "az") /\ i_o2 (instr L) = V (P "bx") (P "by") (P "bz") /\
    2 * PI / x_tau (t_mono t) = P "dm" /\ 2 * PI / x_tau (t_ana t) = P "da" /\ x_mosaic (t_mono t) = P "etam" /\ x_mosaic (t_ana t) = P "etaa" /\
    (forall E, build c QWavevector (P "k") = Ok E -> t_efixed t = en E) /\ (P "kfix" = 1 -> t_infin t = Some 1) /\ (P "kfix" = 2 -> t_infin t = Some (-1)) /\
    t_arms t = Some [C 19; C 20; C 21; C 22; C 27]%nat /\
    (forall i, (1 <= i < 4)%nat -> t_hcol t i = P (nth i ["alpha1"; "alpha2"; "alpha3"; "alpha4"] "") /\ t_vcol t i = P (nth i ["beta1"; "beta2"; "beta3"; "beta4"] "")) /\
    (C 3%nat <> 1 -> t_hcol t 0%nat = P "alpha1" /\ t_vcol t 0%nat = P "beta1") /\
    (C 3%nat = 1 -> t_hcol t 0%nat = Rmin (P "alpha1") (C 4%nat * (2 * PI / P "k")) /\ t_vcol t 0%nat = Rmin (P "beta1") (C 5%nat * (2 * PI / P "k"))) /\
    curved (x_rh (t_mono t)) (P "sm" * C 23%nat) /\ curved (x_rv (t_mono t)) (P "sm" * C 24%nat) /\ curved (x_rh (t_ana t)) (P "sa" * C 25%nat) /\ curved (x_rv (t_ana t)) (P "sa" * C 26%nat) /\
    x_dir (t_mono t) = -1 /\ x_dir (t_ana t) = -1 /\ s_dir t = 1 /\ s_mosaic t = None.
Proof.
  intros num c pl cl par cfg P HP HC HK HL Nk Nm Na. unfold load_parcfg. rewrite HP. cbn [bind]. rewrite HC. cbn [bind].
  assert (N : forall ks, forallb (fun k => mem k needed) ks = true -> need par ks = Ok tt).
  { intros ks F. unfold need. replace (forallb _ ks) with true; [reflexivity|]. symmetry. apply forallb_forall. intros k I. rewrite forallb_forall in F. rewrite (HK k); [reflexivity|]. apply mem_In. apply F. exact I. }
  assert (K : forall k, mem k needed = true -> pval par k = P k) by (intros k I; apply mem_In in I; unfold pval; rewrite (HK k I); reflexivity).
  assert (U : forall n, (n <= 30)%nat -> upto cfg n = Ok tt) by (intros n Hn; unfold upto; replace (Nat.leb n (List.length cfg)) with true; [reflexivity|]; symmetry; apply Nat.leb_le; lia).
  assert (E : exists e, build c QWavevector (P "k"%string) = Ok e) by (unfold build, energy_of; destruct (Req_EM_T (P "k"%string) 0); [contradiction|eexists; reflexivity]). destruct E as (e & E).
  assert (D : forall x y, y <> 0 -> pdiv x y = Ok (x / y)) by (intros x y Hy; unfold pdiv; destruct (Req_EM_T y 0); [contradiction|reflexivity]).
  unfold build_instrument. rewrite !N by reflexivity. rewrite !U by lia. cbn [bind]. rewrite (K "k"%string), (K "dm"%string), (K "da"%string) by reflexivity.
  assert (LM : forall col g, P "k"%string <> 0 -> exists x, limited (P "k"%string) col g = Ok x /\ x = Rmin col (g * (2 * PI / P "k"%string))).
  { intros col g _. unfold limited. rewrite !D by exact Nk. cbn [bind]. assert (HPI := PI_RGT_0). set (k := P "k"%string) in *.
    assert (EQ : PI / 60 / 180 * 2 * PI * g / k = (PI / 60 / 180) * (g * (2 * PI / k))) by (field; exact Nk). rewrite EQ.
    assert (EQ2 : col * PI / 60 / 180 = (PI / 60 / 180) * col) by (field). rewrite EQ2.
    assert (PP : 0 < PI / 60 / 180) by lra.
    destruct (Rle_dec (PI / 60 / 180 * (g * (2 * PI / k))) (PI / 60 / 180 * col)) as [L|L].
    - eexists. split; [reflexivity|]. rewrite Rmin_right; [ring|]. apply (Rmult_le_reg_l (PI / 60 / 180)); assumption.
    - eexists. split; [reflexivity|]. rewrite Rmin_left; [reflexivity|]. apply (Rmult_le_reg_l (PI / 60 / 180)); [exact PP|]. lra. }
  assert (AB : exists a b, first_cols par cfg = Ok (a, b) /\ (nth 3 cfg 0 <> 1 -> a = P "alpha1"%string /\ b = P "beta1"%string) /\
                (nth 3 cfg 0 = 1 -> a = Rmin (P "alpha1"%string) (nth 4 cfg 0 * (2 * PI / P "k"%string)) /\ b = Rmin (P "beta1"%string) (nth 5 cfg 0 * (2 * PI / P "k"%string)))).
  { unfold first_cols, cval. rewrite (K "k"%string), (K "alpha1"%string), (K "beta1"%string), N by reflexivity. destruct (Req_EM_T (nth 3 cfg 0) 1) as [e1|n1].
    - destruct (LM (P "alpha1"%string) (nth 4 cfg 0) Nk) as (a & Ea & Va). destruct (LM (P "beta1"%string) (nth 5 cfg 0) Nk) as (b & Eb & Vb). rewrite Ea, Eb. cbn [bind]. exists a, b. split; [reflexivity|]. split; [intros H; contradiction|intros _; split; assumption].
    - exists (P "alpha1"%string), (P "beta1"%string). split; [reflexivity|]. split; [intros _; split; reflexivity|intros H; contradiction]. }
  destruct AB as (a & b & AB & AB1 & AB2). rewrite AB. cbn [bind]. rewrite E. cbn [bind]. rewrite !D by assumption. cbn [bind].
  eexists. split; [reflexivity|]. unfold make, cval. cbn [fst snd instr i_lat i_o1 i_o2 i_tas t_mono t_ana x_tau x_mosaic t_efixed t_infin t_arms t_hcol t_vcol x_rh x_rv x_dir s_dir s_mosaic].
  rewrite !K by reflexivity. assert (HPI := PI_RGT_0).
  assert (RD : forall x, curved (Some (radius x)) x) by (intros x; unfold radius; split; intros Hx; destruct (Req_EM_T x 0); try contradiction; [eexists; split; [reflexivity|field; exact Hx]|reflexivity]).
  split; [reflexivity|]. split; [reflexivity|]. split; [reflexivity|].
  split; [field; split; [exact Nm|lra]|]. split; [field; split; [exact Na|lra]|]. split; [reflexivity|]. split; [reflexivity|].
  split; [intros E' HE; injection HE as <-; reflexivity|].
  split; [intros ->; destruct (Req_EM_T 1 2); [lra|reflexivity]|]. split; [intros ->; destruct (Req_EM_T 2 2); [reflexivity|lra]|]. split; [reflexivity|].
  split; [intros i Hi; destruct i as [|[|[|[|i]]]]; [lia|split; reflexivity|split; reflexivity|split; reflexivity|lia]|].
  split; [exact AB1|]. split; [exact AB2|]. split; [apply RD|]. split; [apply RD|]. split; [apply RD|]. split; [apply RD|]. repeat split.
Qed.
Print Assumptions C70_loads.
(** C70.  A crystal without spacing is refused, whatever else the files say. *)
Theorem C70_spacing : forall num c pl cl par cfg P, read_par num pl = Ok par -> read_cfg num cl = Ok cfg -> complete par P -> (30 <= List.length cfg)%nat -> P "k"%string <> 0 -> P "dm"%string = 0 \/ P "da"%string = 0 ->
  load_parcfg num c (Some pl) (Some cl) = Err ZeroDivisionError.
Proof.
  intros num c pl cl par cfg P HP HC HK HL Nk Z. unfold load_parcfg. rewrite HP. cbn [bind]. rewrite HC. cbn [bind].
  assert (N : forall ks, forallb (fun k => mem k needed) ks = true -> need par ks = Ok tt).
  { intros ks F. unfold need. replace (forallb _ ks) with true; [reflexivity|]. symmetry. apply forallb_forall. intros k I. rewrite forallb_forall in F. rewrite (HK k); [reflexivity|]. apply mem_In. apply F. exact I. }
  assert (K : forall k, mem k needed = true -> pval par k = P k) by (intros k I; apply mem_In in I; unfold pval; rewrite (HK k I); reflexivity).
  assert (U : forall n, (n <= 30)%nat -> upto cfg n = Ok tt) by (intros n Hn; unfold upto; replace (Nat.leb n (List.length cfg)) with true; [reflexivity|]; symmetry; apply Nat.leb_le; lia).
  assert (E : exists e, build c QWavevector (P "k"%string) = Ok e) by (unfold build, energy_of; destruct (Req_EM_T (P "k"%string) 0); [contradiction|eexists; reflexivity]). destruct E as (e & E).
  assert (D : forall x y, y <> 0 -> pdiv x y = Ok (x / y)) by (intros x y Hy; unfold pdiv; destruct (Req_EM_T y 0); [contradiction|reflexivity]).
  assert (D0 : forall x, pdiv x 0 = Err ZeroDivisionError) by (intros x; unfold pdiv; destruct (Req_EM_T 0 0); [reflexivity|contradiction]).
  unfold build_instrument. rewrite !N by reflexivity. rewrite !U by lia. cbn [bind]. rewrite (K "k"%string), (K "dm"%string), (K "da"%string) by reflexivity.
  assert (F : exists ab, first_cols par cfg = Ok ab). { unfold first_cols. rewrite (K "k"%string), N by reflexivity. destruct (Req_EM_T (cval cfg 3) 1); [|eexists; reflexivity]. unfold limited. rewrite !D by exact Nk. cbn [bind]. destruct (Rle_dec _ _), (Rle_dec _ _); eexists; reflexivity. }
  destruct F as (ab & F). rewrite F. cbn [bind]. rewrite E. cbn [bind]. destruct Z as [-> | Z]; [rewrite D0; reflexivity|]. destruct (Req_EM_T (P "dm"%string) 0) as [-> |Nm]; [rewrite D0; reflexivity|]. rewrite (D _ _ Nm), Z, D0. reflexivity.
Qed.
Print Assumptions C70_spacing.

(** Files for examples: every value of the par file is 1 except KFIX and the angles, no guide, and sizes and curvatures 1. *)
Definition ex_num (s : string) : option R := if String.eqb s "1.0" then Some 1 else if String.eqb s "90.0" then Some 90 else if String.eqb s "2" then Some 2 else if String.eqb s "0" then Some 0 else None.
Definition ex_par : list string :=
  ["1.0 %DM"; "1.0 %DA"; "1.0 %ETAM"; "1.0 %ETAA"; "1.0 %ETAS"; "1.0 %SM"; "1.0 %SS"; "1.0 %SA"; "1.0 %K"; "2 %KFIX"; "1.0 %ALPHA1"; "1.0 %ALPHA2"; "1.0 %ALPHA3"; "1.0 %ALPHA4"; "1.0 %BETA1"; "1.0 %BETA2"; "1.0 %BETA3"; "1.0 %BETA4";
   "1.0 %AS"; "1.0 %BS"; "1.0 %CS"; "90.0 %AA"; "90.0 %BB"; "90.0 %CC"; "1.0 %AX"; "0 %AY"; "0 %AZ"; "0 %BX"; "1.0 %BY"; "0 %BZ"]%string.
Definition ex_cfg : list string := ["1.0"; "1.0"; "1.0"; "0"; "1.0"; "1.0"; "1.0"; "1.0"; "1.0"; "1.0"; "1.0"; "1.0"; "1.0"; "1.0"; "1.0"; "1.0"; "1.0"; "1.0"; "1.0"; "1.0"; "1.0"; "1.0"; "1.0"; "1.0"; "1.0"; "1.0"; "1.0"; "1.0"; "1.0"; "1.0"]%string.
Example C70_loads_example : exists par cfg P, read_par ex_num ex_par = Ok par /\ read_cfg ex_num ex_cfg = Ok cfg /\ complete par P /\ (30 <= List.length cfg)%nat /\ P "k"%string <> 0 /\ P "dm"%string <> 0 /\ P "da"%string <> 0 /\ P "kfix"%string = 2.
Proof.
  do 2 eexists. exists (fun k => if String.eqb k "kfix" then 2 else if mem k ["aa"; "bb"; "cc"]%string then 90 else if mem k ["ay"; "az"; "bx"; "bz"]%string then 0 else 1). split; [reflexivity|]. split; [reflexivity|].
  split; [|cbn; repeat split; try lra; lia]. intros k I. unfold says. repeat (destruct I as [<-|I]; [reflexivity|]). destruct I.
Qed.

Example C70_spacing_example : exists par cfg P, read_par ex_num ("0 %DM"%string :: tl ex_par) = Ok par /\ read_cfg ex_num ex_cfg = Ok cfg /\ complete par P /\ (30 <= List.length cfg)%nat /\ P "k"%string <> 0 /\ P "dm"%string = 0.
Proof.
  do 2 eexists. exists (fun k => if String.eqb k "kfix" then 2 else if mem k ["aa"; "bb"; "cc"]%string then 90 else if mem k ["dm"; "ay"; "az"; "bx"; "bz"]%string then 0 else 1). split; [reflexivity|]. split; [reflexivity|].
  split; [|cbn; repeat split; try lra; lia]. intros k I. unfold says. repeat (destruct I as [<-|I]; [reflexivity|]). destruct I.
Qed.

(** If the names in [ks] have no influence on the instrument made of the values, they have none on the result. *)
Lemma same_instrument c par par' cfg ks L : (forall k, mem k needed = true -> mem k ks = false -> lookup k par' = lookup k par) -> (forall k, In k ks -> lookup k par' <> None) ->
  forallb (fun k => negb (mem k ks)) ["k"; "alpha1"; "beta1"; "dm"; "da"]%string = true ->
  (forall P ab e tm ta, instr (make (fun k => if mem k ks then 0 else P k) (cval cfg) ab e tm ta) = instr (make P (cval cfg) ab e tm ta)) ->
  build_instrument c par cfg = Ok L -> exists L', build_instrument c par' cfg = Ok L' /\ instr L' = instr L.
Proof.
  intros K HN HV HM. 
  assert (N : forall l, need par l = Ok tt -> forallb (fun k => mem k needed) l = true -> need par' l = Ok tt).
  { intros l G F. revert G. unfold need. set (g := fun k => match lookup k par with Some _ => true | None => false end). set (g' := fun k => match lookup k par' with Some _ => true | None => false end). destruct (forallb g l) eqn:E; [|discriminate]. intros _. replace (forallb g' l) with true; [reflexivity|]. symmetry. apply forallb_forall. intros k I. rewrite forallb_forall in F, E. specialize (E k I). unfold g in E. unfold g'.
    destruct (mem k ks) eqn:M; [|rewrite (K k (F k I) M); exact E]. apply mem_In in M. specialize (HN k M). destruct (lookup k par'); [reflexivity|contradiction]. }
  assert (V : forall k, mem k needed = true -> mem k ks = false -> pval par' k = pval par k) by (intros k I M; unfold pval; rewrite (K k I M); reflexivity).
  rewrite forallb_forall in HV. assert (HV' : forall k, In k ["k"; "alpha1"; "beta1"; "dm"; "da"]%string -> mem k ks = false) by (intros k I; specialize (HV k I); destruct (mem k ks); [discriminate|reflexivity]).
  assert (F : first_cols par cfg = first_cols par' cfg \/ exists e, first_cols par cfg = Err e).
  { unfold first_cols. rewrite (V "k"%string), (V "alpha1"%string), (V "beta1"%string) by (try reflexivity; apply HV'; cbn; tauto). destruct (Req_EM_T (cval cfg 3) 1); [|left; reflexivity]. destruct (need par ["k"%string]) as [[]|e0] eqn:E; [|right; eexists; reflexivity]. rewrite (N _ E eq_refl). left. reflexivity. }
  unfold build_instrument. match goal with |- bind ?x _ = _ -> _ => destruct x as [[]|] eqn:E1; [|discriminate] end. rewrite (N _ E1 eq_refl). cbn [bind].
  destruct (upto cfg 6) as [[]|]; [|discriminate]. cbn [bind]. destruct F as [F|(e & F)]; [|rewrite F; discriminate]. rewrite <- F. destruct (first_cols par cfg) as [ab|]; [|discriminate]. cbn [bind].
  destruct (upto cfg 30) as [[]|]; [|discriminate]. cbn [bind]. destruct (need par ["k"%string]) as [[]|] eqn:E2; [|discriminate]. rewrite (N _ E2 eq_refl). cbn [bind].
  rewrite (V "k"%string), (V "dm"%string), (V "da"%string) by (try reflexivity; apply HV'; cbn; tauto). destruct (build c QWavevector _) as [E|]; [|discriminate]. cbn [bind].
  match goal with |- bind ?x _ = _ -> _ => destruct x as [[]|] eqn:E3; [|discriminate] end. rewrite (N _ E3 eq_refl). cbn [bind]. destruct (pdiv (2 * PI) (pval par "dm")) as [tm|]; [|discriminate]. cbn [bind].
  match goal with |- bind ?x _ = _ -> _ => destruct x as [[]|] eqn:E4; [|discriminate] end. rewrite (N _ E4 eq_refl). cbn [bind]. destruct (pdiv (2 * PI) (pval par "da")) as [ta|]; [|discriminate]. cbn [bind].
  match goal with |- bind ?x _ = _ -> _ => destruct x as [[]|] eqn:E5; [|discriminate] end. rewrite (N _ E5 eq_refl). cbn [bind]. intros H. injection H as <-. eexists. split; [reflexivity|].
  rewrite <- (HM (pval par')), <- (HM (pval par)). unfold make. cbn [instr].
  assert (W : forall k, mem k needed = true -> (if mem k ks then 0 else pval par' k) = (if mem k ks then 0 else pval par k)) by (intros k I; destruct (mem k ks) eqn:M; [reflexivity|apply V; assumption]).
  rewrite !W by reflexivity. reflexivity.
Qed.
(** The scattering sense and the mosaic of the sample have no influence on the instrument, nor have the names nobody reads. *)
Theorem C70_ignored : forall num c pl pl' cl par par' L, read_par num pl = Ok par -> read_par num pl' = Ok par' ->
  (forall k, In k needed -> ~ In k ["etas"; "ss"]%string -> lookup k par = lookup k par') -> (forall k, In k ["etas"; "ss"]%string -> lookup k par' <> None) ->
  load_parcfg num c (Some pl) (Some cl) = Ok L -> exists L', load_parcfg num c (Some pl') (Some cl) = Ok L' /\ instr L' = instr L.
Proof.
  intros num c pl pl' cl par par' L HP HP' HE HN. unfold load_parcfg. rewrite HP, HP'. cbn [bind]. destruct (read_cfg num cl) as [cfg|]; [|discriminate]. cbn [bind].
  assert (K : forall k, mem k needed = true -> mem k ["etas"; "ss"]%string = false -> lookup k par' = lookup k par) by (intros k I N; apply mem_In in I; symmetry; apply (HE k I); intros C; apply mem_In in C; congruence).
  apply (same_instrument c par par' cfg ["etas"; "ss"]%string); [exact K|exact HN|reflexivity|intros P; reflexivity].
Qed.
Print Assumptions C70_ignored.
Example C70_ignored_example : exists par, read_par ex_num (List.app ex_par ["0 %SS"; "2 %ETAS"; "0 %QX"]%string) = Ok par /\ lookup "ss" par = Some 0 /\ lookup "etas" par = Some 2.
Proof. eexists. repeat split. Qed.
(** With flat crystals the other two senses have no influence either: both senses give the same instrument. *)
Theorem C70_senses : forall num c pl pl' cl par par' cfg L, read_par num pl = Ok par -> read_par num pl' = Ok par' -> read_cfg num cl = Ok cfg ->
  (forall i, In i [23; 24; 25; 26]%nat -> nth_error cfg i = Some 0) ->
  (forall k, In k needed -> ~ In k ["sm"; "ss"; "sa"]%string -> lookup k par = lookup k par') -> (forall k, In k ["sm"; "ss"; "sa"]%string -> lookup k par' <> None) ->
  load_parcfg num c (Some pl) (Some cl) = Ok L -> exists L', load_parcfg num c (Some pl') (Some cl) = Ok L' /\ instr L' = instr L.
Proof.
  intros num c pl pl' cl par par' cfg L HP HP' HC H0 HE HN. unfold load_parcfg. rewrite HP, HP'. cbn [bind]. rewrite HC. cbn [bind].
  assert (K : forall k, mem k needed = true -> mem k ["sm"; "ss"; "sa"]%string = false -> lookup k par' = lookup k par) by (intros k I N; apply mem_In in I; symmetry; apply (HE k I); intros C; apply mem_In in C; congruence).
  assert (A : forall i, In i [23; 24; 25; 26]%nat -> cval cfg i = 0) by (intros i I; unfold cval; apply nth_error_nth; exact (H0 i I)).
  apply (same_instrument c par par' cfg ["sm"; "ss"; "sa"]%string); [exact K|exact HN|reflexivity|].
  intros P ab e tm ta. unfold make. cbn [instr]. rewrite !(A 23%nat), !(A 24%nat), !(A 25%nat), !(A 26%nat) by (cbn; tauto). rewrite !Rmult_0_r. reflexivity.
Qed.
Print Assumptions C70_senses.
Example C70_senses_example : exists par cfg, read_par ex_num (List.app ex_par ["2 %SM"; "0 %SS"; "0 %SA"]%string) = Ok par /\ lookup "sm" par = Some 2 /\
  read_cfg ex_num (List.app (firstn 23 ex_cfg) ["0"; "0"; "0"; "0"; "1.0"; "1.0"; "1.0"]%string) = Ok cfg /\ (forall i, In i [23; 24; 25; 26]%nat -> nth_error cfg i = Some 0).
Proof. do 2 eexists. repeat split. intros i I. repeat (destruct I as [<-|I]; [reflexivity|]). destruct I. Qed.

Lemma made c par cfg L : build_instrument c par cfg = Ok L -> exists P ab e tm ta, L = make P (cval cfg) ab e tm ta.
Proof.
  unfold build_instrument. repeat match goal with |- bind ?x _ = Ok L -> _ => destruct x; [|discriminate]; cbn [bind] end. intros H. injection H as <-. do 5 eexists. reflexivity.
Qed.
(** Sizes.  A slit of width w, seen uniformly, has the variance w^2/12. *)
Lemma uniform_variance w : 0 < w -> RInt (fun x => x ^ 2 / w) (- (w / 2)) (w / 2) = w ^ 2 / 12.
Proof.
  intros H. apply is_RInt_unique. assert (E : w ^ 2 / 12 = minus (G := R_AbelianGroup) ((fun x => x ^ 3 / (3 * w)) (w / 2)) ((fun x => x ^ 3 / (3 * w)) (- (w / 2)))) by (unfold minus, plus, opp; simpl; field; lra). rewrite E.
  apply (is_RInt_derive (V := R_CompleteNormedModule) (fun x => x ^ 3 / (3 * w)) (fun x => x ^ 2 / w)); intros x _; [auto_derive; [lra|field; lra]|]. apply (ex_derive_continuous (fun x => x ^ 2 / w)). auto_derive. lra.
Qed.
(** The calculation takes the loaded sizes of source, detector and monitor for widths again: the variances are too small by a factor 12. *)
Theorem C70_sizes : forall num c pl cl par cfg L, read_par num pl = Ok par -> read_cfg num cl = Ok cfg -> load_parcfg num c (Some pl) (Some cl) = Ok L ->
  let t := i_tas (instr L) in let C i := nth i cfg 0 in
  (forall i, (i < 2)%nat ->
    (let w := nth i [C 1; C 2]%nat 0 in C 0%nat <> 0 -> 0 < w -> bshape t i i = RInt (fun x => x ^ 2 / w) (- (w / 2)) (w / 2) / 12) /\
    (let w := nth i [C 11; C 12]%nat 0 in C 10%nat <> 0 -> 0 < w -> dshape t i i = RInt (fun x => x ^ 2 / w) (- (w / 2)) (w / 2) / 12) /\
    (let w := nth i [C 28; C 29]%nat 0 in 0 < w -> monitorshape t i i = RInt (fun x => x ^ 2 / w) (- (w / 2)) (w / 2) / 12) /\
    (C 0%nat = 0 -> bshape t i i = nth i [C 1; C 2]%nat 0 ^ 2 / 16 / 12) /\ (C 10%nat = 0 -> dshape t i i = nth i [C 11; C 12]%nat 0 ^ 2 / 16 / 12)) /\
  (forall i, (i < 3)%nat ->
    (let w := nth i [C 13; C 14; C 15]%nat 0 in 0 < w -> xshape (t_mono t) i i = RInt (fun x => x ^ 2 / w) (- (w / 2)) (w / 2)) /\
    (let w := nth i [C 16; C 17; C 18]%nat 0 in 0 < w -> xshape (t_ana t) i i = RInt (fun x => x ^ 2 / w) (- (w / 2)) (w / 2))).
Proof.
  intros num c pl cl par cfg L HP HC. unfold load_parcfg. rewrite HP. cbn [bind]. rewrite HC. cbn [bind]. intros H. destruct (made c par cfg L H) as (P & ab & e & tm & ta & ->). cbv zeta. unfold make, cval. cbn [instr i_tas]. unfold bshape, dshape, monitorshape, xshape. cbn [t_guide t_detector t_monitor t_mono w_width w_height x_depth x_width x_height].
  assert (S12 : sqrt 12 * sqrt 12 = 12) by (apply sqrt_sqrt; lra). assert (P12 : 0 < sqrt 12) by (apply sqrt_lt_R0; lra).
  assert (SZ : forall x, size (Some (x / sqrt 12)) = x ^ 2 / 12 / 12).
  { intros x. unfold size. replace ((x / sqrt 12) ^ 2) with (x ^ 2 / (sqrt 12 * sqrt 12)) by (field; lra). rewrite S12. reflexivity. }
  assert (EX : forall f w, f <> 0 -> size (Some (extent f w)) = w ^ 2 / 12 / 12) by (intros f w N; unfold extent; destruct (Req_EM_T f 0); [contradiction|apply SZ]).
  assert (EC : forall f w, f = 0 -> size (Some (extent f w)) = w ^ 2 / 16 / 12) by (intros f w N; unfold extent; destruct (Req_EM_T f 0); [unfold size; field|contradiction]).
  split; intros i Hi.
  - split; [|split; [|split; [|split]]].
    + intros N W. rewrite uniform_variance by exact W. destruct i as [|[|i]]; [apply (EX _ _ N)|apply (EX _ _ N)|lia].
    + intros N W. rewrite uniform_variance by exact W. destruct i as [|[|i]]; [apply (EX _ _ N)|apply (EX _ _ N)|lia].
    + intros W. rewrite uniform_variance by exact W. destruct i as [|[|i]]; [apply SZ|exact (SZ (nth 29 cfg 0))|lia].
    + intros N. destruct i as [|[|i]]; [apply (EC _ _ N)|apply (EC _ _ N)|lia].
    + intros N. destruct i as [|[|i]]; [apply (EC _ _ N)|apply (EC _ _ N)|lia].
  - split; intros W; rewrite uniform_variance by exact W; destruct i as [|[|[|i]]]; try lia; reflexivity.
Qed.
Print Assumptions C70_sizes.
Example C70_sizes_example : forall c, exists L, load_parcfg ex_num c (Some ex_par) (Some ex_cfg) = Ok L.
Proof.
  intros c. destruct C70_loads_example as (par & cfg & P & H1 & H2 & H3 & H4 & H5 & H6 & H7 & _). destruct (C70_loads ex_num c ex_par ex_cfg par cfg P H1 H2 H3 H4 H5 H6 H7) as (L & HL & _). exists L. exact HL.
Qed.
(** The sample: its variances are proportional to the sizes and not to their squares, and the first, along Q, is made of the size perpendicular to Q. *)
Theorem C70_sample : forall num c pl cl par cfg L, read_par num pl = Ok par -> read_cfg num cl = Ok cfg -> load_parcfg num c (Some pl) (Some cl) = Ok L ->
  let C i := nth i cfg 0 in
  exists m, sshapes (i_tas (instr L)) 0 = Some m /\
    let f := if Req_EM_T (C 6%nat) 0 then 4 else sqrt 12 in
    forall i, (i < 3)%nat -> m i i = nth i [C 7; C 8; C 9]%nat 0 / f / 12.
Proof.
  intros num c pl cl par cfg L HP HC. unfold load_parcfg. rewrite HP. cbn [bind]. rewrite HC. cbn [bind]. intros H. destruct (made c par cfg L H) as (P & ab & e & tm & ta & ->). cbv zeta. unfold make, cval. cbn [instr i_tas].
  unfold sshapes. cbn [s_width s_shape s_depth s_height]. eexists. split; [reflexivity|]. unfold factor. cbn [s_type]. change (String.eqb "rectangular" "cylindrical") with false. cbn iota.
  intros i Hi. unfold extent. destruct (Req_EM_T _ 0) as [e0|e0]; destruct i as [|[|[|i]]]; try lia; reflexivity.
Qed.
Print Assumptions C70_sample.

(** C109: the printed properties of a neutron. *)
From Coq Require Import String Ascii List Bool ZArith Reals Lra Lia DecimalString DecimalZ DecimalPos.
From Flocq Require Import Core.
From Verif Require Import Base TextModel TextProof EnergyModel SymModel EnergyTextModel.
Import ListNotations.
Local Open Scope string_scope.

(** ** Reading numbers *)
Definition unsigned_number (s : string) : option R :=
  match TextModel.split "." s with
  | [a; b] => match NilZero.uint_of_string a, NilZero.uint_of_string b with
              | Some i, Some f => Some (IZR (Z.of_uint i) + IZR (Z.of_uint f) / 10 ^ String.length b)%R
              | _, _ => None
              end
  | _ => None
  end.
Definition number (s : string) : option R := match s with String "-" r => option_map Ropp (unsigned_number r) | _ => unsigned_number s end.
Definition label (q : quantity) : string :=
  match q with QEnergy => "Energy:" | QWavelength => "Wavelength:" | QWavevector => "Wavevector:" | QVelocity => "Velocity:" | QTemperature => "Temperature:" | QFrequency => "Frequency:" end.
Definition unit_of (q : quantity) : string := match q with QEnergy => "meV" | QWavelength => "Å" | QWavevector => "1/Å" | QVelocity => "m/s" | QTemperature => "K" | QFrequency => "THz" end.
(** What a text says of a quantity: the word between its name and its unit, in some line. *)
Definition says (s : string) (q : quantity) (w : string) : Prop := In [label q; w; unit_of q] (map (TextModel.split " ") (TextModel.split newline s)).

(** ** Digits *)
Definition digit_or (c : ascii) : bool := (let n := nat_of_ascii c in Nat.leb 48 n && Nat.leb n 57)%nat.
Lemma uint_digits d : allc digit_or (NilEmpty.string_of_uint d) = true.
Proof. induction d; cbn; auto. Qed.
Lemma int_text k : (0 <= k)%Z -> allc digit_or (str_of_int k) = true /\ exists d, NilZero.uint_of_string (str_of_int k) = Some d /\ Z.of_uint d = k.
Proof.
  intros K. unfold str_of_int. assert (E : exists d, Z.to_int k = Decimal.Pos d /\ d <> Decimal.Nil). { destruct k as [|p|p]; [|exists (Pos.to_uint p); split; [reflexivity|apply DecimalPos.Unsigned.to_uint_nonnil]|lia]. exists (Decimal.D0 Decimal.Nil). split; [reflexivity|discriminate]. }
  destruct E as (d & E & N). assert (O := DecimalZ.of_to k). rewrite E in *. cbn in O. cbn [NilZero.string_of_int]. split; [destruct d; try contradiction; apply (uint_digits (_ d))|]. exists d. split; [apply NilZero.usu, N|exact O].
Qed.
Lemma three_text r : (0 <= r < 1000)%Z -> allc digit_or (three r) = true /\ String.length (three r) = 3%nat /\ exists d, NilZero.uint_of_string (three r) = Some d /\ Z.of_uint d = r.
Proof.
  intros H. assert (C : forallb (fun n => let r := Z.of_nat n in allc digit_or (three r) && Nat.eqb (String.length (three r)) 3 && match NilZero.uint_of_string (three r) with Some d => Z.eqb (Z.of_uint d) r | None => false end) (seq 0 1000) = true) by (vm_compute; reflexivity).
  rewrite forallb_forall in C. specialize (C (Z.to_nat r)). rewrite Z2Nat.id in C by lia. specialize (C ltac:(apply in_seq; lia)). apply andb_prop in C. destruct C as [C E]. apply andb_prop in C. destruct C as [C L]. split; [exact C|]. split; [apply Nat.eqb_eq, L|]. destruct (NilZero.uint_of_string (three r)) as [d|]; [|discriminate]. exists d. split; [reflexivity|apply Z.eqb_eq, E].
Qed.
Lemma thousandths_pos x : (0 <= thousandths x)%Z.
Proof. unfold thousandths. rewrite <- (@Zrnd_IZR ZnearestE (valid_rnd_N _) 0). apply (@Zrnd_le ZnearestE (valid_rnd_N _)). apply Rmult_le_pos; [apply Rabs_pos|lra]. Qed.
Lemma thousandths_near x : (Rabs (IZR (thousandths x) / 1000 - Rabs x) <= 1 / 2000)%R.
Proof. unfold thousandths. assert (H := Znearest_half (fun n => negb (Z.even n)) (Rabs x * 1000)). apply Rabs_le_inv in H. apply Rabs_le. set (n := IZR (ZnearestE (Rabs x * 1000))) in *. clearbody n. lra. Qed.
Lemma unsigned_ok x : unsigned_number (str_of_int (thousandths x / 1000) ++ "." ++ three (thousandths x mod 1000)) = Some (IZR (thousandths x) / 1000)%R.
Proof.
  assert (P := thousandths_pos x). set (n := thousandths x) in *. clearbody n. assert (Q : (0 <= n / 1000)%Z) by (apply Z.div_pos; lia). assert (M := Z.mod_pos_bound n 1000 ltac:(lia)).
  destruct (int_text _ Q) as (A & i & I & Ei). destruct (three_text _ M) as (B & L & f & F & Ef). unfold unsigned_number. change ("." ++ three (n mod 1000)) with (String "." (three (n mod 1000))).
  rewrite split_at by (apply (allc_has _ _ _ A); reflexivity). rewrite split_none by (apply (allc_has _ _ _ B); reflexivity). rewrite I, F, L, Ei, Ef. f_equal. rewrite (Z.div_mod n 1000) at 3 by lia. rewrite plus_IZR, mult_IZR. cbn [pow]. lra.
Qed.
Lemma digits_minus s r : allc digit_or s = true -> s <> "" -> number (s ++ r) = unsigned_number (s ++ r).
Proof. destruct s as [|c s]; [contradiction|]. cbn. intros H _. apply andb_prop in H. destruct H as [H _]. destruct c as [[] [] [] [] [] [] [] []]; try reflexivity; discriminate. Qed.
Lemma number_ok x : exists r, number (fmt_number x) = Some r /\ (Rabs (r - x) <= 1 / 2000)%R.
Proof.
  unfold fmt_number. assert (U := unsigned_ok x). assert (N := thousandths_near x). assert (P := thousandths_pos x). destruct (int_text (thousandths x / 1000) ltac:(apply Z.div_pos; lia)) as (A & i & I & _).
  destruct (Rlt_dec x 0) as [H|H].
  - exists (- (IZR (thousandths x) / 1000))%R. split; [cbn; cbn in U; rewrite U; reflexivity|]. rewrite (Rabs_left x H) in N. rewrite <- Rabs_Ropp. replace (- (- (IZR (thousandths x) / 1000) - x))%R with (IZR (thousandths x) / 1000 - - x)%R by ring. exact N.
  - exists (IZR (thousandths x) / 1000)%R. split; [cbn [String.append]; rewrite digits_minus; [exact U|exact A|intros E; rewrite E in I; discriminate]|]. rewrite (Rabs_right x) in N by lra. exact N.
Qed.
Definition number_char (c : ascii) : bool := digit_or c || Ascii.eqb c "-" || Ascii.eqb c "." || Ascii.eqb c "i" || Ascii.eqb c "n" || Ascii.eqb c "f" || Ascii.eqb c "a".
Lemma allc_weaken (f g : ascii -> bool) s : (forall c, f c = true -> g c = true) -> allc f s = true -> allc g s = true.
Proof. intros H. induction s as [|c s IH]; cbn; [reflexivity|]. intros E. apply andb_prop in E. destruct E as [E F]. rewrite (H _ E), (IH F). reflexivity. Qed.
Lemma fmt_chars x : allc number_char (fmt x) = true.
Proof.
  destruct x as [x| |]; [|reflexivity|reflexivity]. cbn [fmt]. unfold fmt_number. assert (P := thousandths_pos x). destruct (int_text (thousandths x / 1000) ltac:(apply Z.div_pos; lia)) as (A & _). destruct (three_text _ (Z.mod_pos_bound (thousandths x) 1000 ltac:(lia))) as (B & _).
  assert (W : forall s, allc digit_or s = true -> allc number_char s = true) by (intros s; apply allc_weaken; intros c H; unfold number_char; rewrite H; reflexivity). rewrite !allc_app, (W _ A), (W _ B). destruct (Rlt_dec x 0); reflexivity.
Qed.
Lemma fmt_has c x : number_char c = false -> has c (fmt x) = false.
Proof. intros H. exact (allc_has _ _ _ (fmt_chars x) H). Qed.
Lemma pieces o : TextModel.split newline (values o) = [""; "Energy: " ++ fmt (Fin (en o)) ++ " meV"; "Wavelength: " ++ fmt (wavelen o) ++ " Å"; "Wavevector: " ++ fmt (wavevec o) ++ " 1/Å"; "Velocity: " ++ fmt (vel o) ++ " m/s";
     "Temperature: " ++ fmt (Fin (temp o)) ++ " K"; "Frequency: " ++ fmt (Fin (freq o)) ++ " THz"; ""].
Proof. unfold values. apply split_of_join; [discriminate|]. repeat constructor; rewrite !has_app, fmt_has by reflexivity; reflexivity. Qed.
Lemma words_of a x b : has " " a = false -> has " " b = false -> TextModel.split " " ((a ++ " ") ++ fmt x ++ " " ++ b) = [a; fmt x; b].
Proof. intros A B. rewrite <- app_assoc. cbn [String.append]. change ((fix app (a b : string) {struct a} := match a with "" => b | String c a' => String c (app a' b) end) ) with String.append. rewrite split_at by exact A. rewrite split_at by (apply fmt_has; reflexivity). rewrite split_none by exact B. reflexivity. Qed.
Lemma said o : map (TextModel.split " ") (TextModel.split newline (values o)) = [[""]; [label QEnergy; fmt (get o QEnergy); unit_of QEnergy]; [label QWavelength; fmt (get o QWavelength); unit_of QWavelength]; [label QWavevector; fmt (get o QWavevector); unit_of QWavevector];
  [label QVelocity; fmt (get o QVelocity); unit_of QVelocity]; [label QTemperature; fmt (get o QTemperature); unit_of QTemperature]; [label QFrequency; fmt (get o QFrequency); unit_of QFrequency]; [""]].
Proof.
  rewrite pieces. cbn [map].
  repeat match goal with |- context [TextModel.split " " (?l ++ fmt ?x ++ ?r)] =>
    let a := eval vm_compute in (substring 0 (String.length l - 1) l) in let b := eval vm_compute in (substring 1 (String.length r - 1) r) in
    change (TextModel.split " " (l ++ fmt x ++ r)) with (TextModel.split " " ((a ++ " ") ++ fmt x ++ " " ++ b)); rewrite (words_of a x b eq_refl eq_refl) end.
  reflexivity.
Qed.

(** Every quantity is named once with its unit, by a number that is right to half of a thousandth; what is not finite is shown as nan or inf. *)
Theorem C109_read : forall o q, exists w, says (str o) q w /\ (forall w', says (str o) q w' -> w' = w) /\
  match get o q with Fin x => exists r, number w = Some r /\ (Rabs (r - x) <= 1 / 2000)%R | NaN => w = "nan" | Inf => w = "inf" end.
Proof.
  intros o q. exists (fmt (get o q)). unfold says, str. rewrite said. split; [destruct q; cbn; tauto|]. split; [|destruct (get o q) as [x| |]; [apply number_ok|reflexivity|reflexivity]].
  intros w' H. cbn [In] in H. destruct q; repeat (destruct H as [H|H]; [try discriminate; try (injection H as <-; reflexivity)|]); contradiction.
Qed.
Print Assumptions C109_read.

(** Two neutrons with the same text agree to a thousandth in all that is finite, and in what is not. *)
Theorem C109_distinguish : forall o o', str o = str o' -> forall q,
  match get o q, get o' q with Fin x, Fin x' => (Rabs (x - x') <= 1 / 1000)%R | NaN, NaN => True | Inf, Inf => True | _, _ => False end.
Proof.
  intros o o' E q. destruct (C109_read o q) as (w & S & _ & G). destruct (C109_read o' q) as (w' & _ & U & G'). assert (w = w') by (apply U; rewrite <- E; exact S). subst w'.
  destruct (get o q) as [x| |], (get o' q) as [x'| |]; try exact I.
  - destruct G as (r & N & X), G' as (r' & N' & X'). assert (r' = r) by congruence. subst r'. apply Rabs_le_inv in X, X'. apply Rabs_le. lra.
  - destruct G as (r & N & _). subst w. discriminate.
  - destruct G as (r & N & _). subst w. discriminate.
  - destruct G' as (r & N & _). subst w. discriminate.
  - subst w. discriminate.
  - destruct G' as (r & N & _). subst w. discriminate.
  - subst w. discriminate.
Qed.
Print Assumptions C109_distinguish.

Lemma fmt_small x : (0 <= x < 1 / 2000)%R -> fmt_number x = "0.000".
Proof.
  intros H. unfold fmt_number, thousandths. rewrite (Rabs_right x) by lra. rewrite (Znearest_imp _ _ 0) by (rewrite Rminus_0_r; apply Rabs_def1; lra). destruct (Rlt_dec x 0); [lra|]. vm_compute. reflexivity.
Qed.
(** Energies below half of a thousandth are not told from none; those below 0 are. *)
Theorem C109_small : forall c E, (0 <= E < 1 / 2000)%R -> says (str (values_of c E)) QEnergy "0.000".
Proof. intros c E H. unfold says, str. rewrite said. right. left. cbn [get en values_of fmt]. rewrite (fmt_small E H). reflexivity. Qed.
Print Assumptions C109_small.
Theorem C109_zero : forall c q, (0 < c_m c)%R -> (0 < c_J c)%R -> says (str (values_of c 0)) q (match q with QWavelength => "nan" | _ => "0.000" end).
Proof.
  intros c q M J. unfold says, str. rewrite said. assert (Z : forall x, x = 0%R -> fmt (Fin x) = "0.000") by (intros x ->; apply fmt_small; lra).
  assert (V : vel (values_of c 0) = Fin 0). { cbn. unfold fsqrt. replace (2 * 0 / c_J c / c_m c)%R with 0%R by (unfold Rdiv; ring). destruct (Rle_lt_dec 0 0); [rewrite sqrt_0; reflexivity|lra]. }
  destruct q; cbn [get]; rewrite ?V; cbn [values_of en temp freq wavelen wavevec]; destruct (Req_EM_T 0 0); try contradiction; rewrite ?(Z 0%R eq_refl); rewrite ?(Z (0 / c_k c / c_J c)%R ltac:(unfold Rdiv; ring)), ?(Z (0 / c_J c / c_hbar c / 2 / PI / 10 ^ 12)%R ltac:(unfold Rdiv; ring)); cbn; tauto.
Qed.
Print Assumptions C109_zero.
Theorem C109_negative : forall c E, (0 < c_h c)%R -> (0 < c_m c)%R -> (0 < c_J c)%R -> (E < 0)%R ->
  (forall q, In q [QWavelength; QWavevector; QVelocity] -> says (str (values_of c E)) q "nan") /\ exists r, says (str (values_of c E)) QEnergy (String "-" r).
Proof.
  intros c E H M J N. assert (D : (2 * c_m c * E / c_J c < 0)%R). { unfold Rdiv. apply Ropp_lt_cancel. rewrite Ropp_0, Ropp_mult_distr_l, Ropp_mult_distr_r. apply Rmult_lt_0_compat; [apply Rmult_lt_0_compat; lra|apply Rinv_0_lt_compat, J]. }
  assert (W : wavelength_of c E = NaN). { unfold wavelength_of, fsqrt. destruct (Rle_lt_dec 0 _) as [L|L]; [|reflexivity]. exfalso. apply (Rlt_not_le _ _ (Rinv_lt_0_compat _ D)). apply Rmult_le_reg_l with (c_h c ^ 2)%R; [apply pow_lt, H|]. rewrite Rmult_0_r. exact L. }
  assert (V : fsqrt (2 * E / c_J c / c_m c) = NaN). { unfold fsqrt. destruct (Rle_lt_dec 0 _) as [L|L]; [|reflexivity]. exfalso. apply Rle_not_lt in L. apply L. unfold Rdiv. apply Ropp_lt_cancel. rewrite Ropp_0. replace (- (2 * E * / c_J c * / c_m c))%R with ((2 * - E) * (/ c_J c * / c_m c))%R by ring. apply Rmult_lt_0_compat; [lra|apply Rmult_lt_0_compat; apply Rinv_0_lt_compat; assumption]. }
  split.
  - intros q Q. unfold says, str. rewrite said. destruct Q as [<-|[<-|[<-|[]]]]; cbn [get values_of wavelen wavevec vel]; unfold wavevector_of; rewrite ?W, ?V; destruct (Req_EM_T E 0); try lra; cbn; tauto.
  - unfold says, str. rewrite said. eexists. right. left. cbn [get values_of en fmt]. unfold fmt_number. destruct (Rlt_dec E 0); [|contradiction]. reflexivity.
Qed.
Print Assumptions C109_negative.
(** 14.7 meV. *)
Example C109_case : fmt_number (147 / 10) = "14.700" /\ fmt_number (-1 / 4) = "-0.250".
Proof.
  split; unfold fmt_number, thousandths.
  - rewrite (Rabs_right (147 / 10)) by lra. rewrite (Znearest_imp _ _ 14700) by (apply Rabs_def1; lra). destruct (Rlt_dec (147 / 10) 0); [lra|]. vm_compute. reflexivity.
  - rewrite (Rabs_left (-1 / 4)) by lra. rewrite (Znearest_imp _ _ 250) by (apply Rabs_def1; lra). destruct (Rlt_dec (-1 / 4) 0); [|lra]. vm_compute. reflexivity.
Qed.

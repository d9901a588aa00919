(** C76: the line shape of single-mode cross sections. *)
From Coquelicot Require Import Coquelicot.
From Coq Require Import Reals String List ZArith Lia Lra Psatz Bool.
From Verif Require Import Base LinAlg ConvModel SmaModel NumBounds VoigtBern.
Import ListNotations.
Local Open Scope R_scope.

(** * Conjugate numbers *)
Definition conj (z : cx) : cx := (fst z, - snd z).
Lemma cx_eq (z w : cx) : fst z = fst w -> snd z = snd w -> z = w.
Proof. destruct z, w. simpl. intros -> ->. reflexivity. Qed.
Lemma conj_re x : conj (cre x) = cre x. Proof. unfold conj, cre. simpl. apply cx_eq; simpl; ring. Qed.
Lemma conj_add z w : conj (cadd z w) = cadd (conj z) (conj w). Proof. apply cx_eq; simpl; ring. Qed.
Lemma conj_sub z w : conj (csub z w) = csub (conj z) (conj w). Proof. apply cx_eq; simpl; ring. Qed.
Lemma conj_mul z w : conj (cmul z w) = cmul (conj z) (conj w). Proof. apply cx_eq; simpl; ring. Qed.
Lemma conj_exp z : conj (cexp z) = cexp (conj z). Proof. apply cx_eq; simpl; [rewrite cos_neg|rewrite sin_neg]; ring. Qed.
Lemma conj_div z w : cdiv (conj z) (conj w) = option_map conj (cdiv z w).
Proof.
  unfold cdiv. cbn [conj fst snd]. replace (fst w * fst w + - snd w * - snd w) with (fst w * fst w + snd w * snd w) by ring. destruct Req_EM_T as [E|N]; [reflexivity|].
  cbn [option_map]. f_equal. apply cx_eq; simpl; field; exact N.
Qed.
Lemma conj_horner l z : horner l (conj z) = conj (horner l z).
Proof. induction l as [|c [|d l] IH]; [symmetry; apply conj_re|symmetry; apply conj_re|]. cbn [horner] in *. rewrite IH, conj_add, conj_mul, conj_re. reflexivity. Qed.
Lemma conj_minus l z : horner_minus l (conj z) = conj (horner_minus l z).
Proof. induction l as [|c [|d l] IH]; [symmetry; apply conj_re|symmetry; apply conj_re|]. cbn [horner_minus] in *. rewrite IH, conj_sub, conj_mul, conj_re. reflexivity. Qed.
Lemma fst_conj (o : option cx) : option_map fst (option_map conj o) = option_map fst o.
Proof. destruct o; reflexivity. Qed.

Theorem C76_line_even : forall x a, voigt (- x) a = voigt x a.
Proof.
  intros x a. unfold voigt. rewrite Rabs_Ropp. set (t := (a, - x)). assert (Et : (a, - - x) = conj t) by reflexivity. rewrite Et.
  replace (cmul (conj t) (conj t)) with (conj (cmul t t)) by apply conj_mul. set (u := cmul t t).
  assert (E1 : approx1 (conj t) = option_map conj (approx1 t)) by (unfold approx1; rewrite <- conj_div, conj_mul, conj_add, conj_mul, !conj_re; reflexivity).
  assert (E2 : approx2 (conj t) (conj u) = option_map conj (approx2 t u)) by (unfold approx2; rewrite <- conj_div; rewrite !conj_mul, !conj_add, !conj_mul, !conj_add, !conj_re; reflexivity).
  assert (E3 : approx3 (conj t) = option_map conj (approx3 t)) by (unfold approx3; rewrite !conj_horner, conj_div; reflexivity).
  assert (E4 : option_map (fun z => csub (cexp (conj u)) z) (approx4 (conj t) (conj u)) = option_map conj (option_map (fun z => csub (cexp u) z) (approx4 t u))).
  { unfold approx4. rewrite !conj_minus, <- conj_mul, conj_div. destruct (cdiv _ _); [|reflexivity]. cbn [option_map]. f_equal. rewrite conj_sub, conj_exp. reflexivity. }
  rewrite E1, E2, E3, E4. replace ((- x) ^ 2) with (x ^ 2) by ring.
  destruct (negb _ && _)%bool; [rewrite fst_conj; reflexivity|]. destruct (_ && ltb a (75 / 100))%bool; [rewrite fst_conj; reflexivity|]. destruct (_ && leb (75 / 100) a)%bool; [rewrite fst_conj; reflexivity|].
  destruct (_ && ltb a (55 / 10))%bool; [rewrite fst_conj; reflexivity|]. destruct (_ && leb (55 / 10) a)%bool; [rewrite fst_conj; reflexivity|]. destruct (_ || _)%bool; [rewrite fst_conj; reflexivity|]. reflexivity.
Qed.
Print Assumptions C76_line_even.

(** * No division by zero *)
Lemma cdiv_some z w : w <> (0, 0) -> exists y, cdiv z w = Some y.
Proof. intros N. unfold cdiv. destruct Req_EM_T as [E|_]; [|eexists; reflexivity]. exfalso. apply N. destruct w as [p q]. cbn [fst snd] in E. assert (p = 0) by nra. assert (q = 0) by nra. subst. reflexivity. Qed.

(** A polynomial whose continued fraction has positive coefficients has no zero in the right half-plane. *)
Definition re2 (z w : cx) : R := fst z * fst w + snd z * snd w.
Lemma re2_step k t A B : 0 < k -> 0 <= fst t -> 0 <= re2 A B -> 0 <= re2 (cadd (cmul (cre k) (cmul t B)) A) B.
Proof.
  destruct t as [a b], A as [p q], B as [r s]. unfold re2. simpl. intros K T H.
  replace ((k * (a * r - b * s) - 0 * (a * s + b * r) + p) * r + (k * (a * s + b * r) + 0 * (a * r - b * s) + q) * s) with (k * (a * (r * r + s * s)) + (p * r + q * s)) by ring.
  assert (0 <= r * r + s * s) by nra. assert (0 <= a * (r * r + s * s)) by (apply Rmult_le_pos; auto). nra.
Qed.
Lemma re2_sym z w : re2 z w = re2 w z. Proof. unfold re2. ring. Qed.
Lemma hurwitz c0 c1 c2 c3 c4 t : let r3 := c3 - c2 / c4 in let r1 := c1 - c0 / c4 in let s2 := c2 - c4 * r1 / r3 in let v1 := r1 - r3 * c0 / s2 in
  0 < c0 -> 0 < c4 -> 0 < r3 -> 0 < s2 -> 0 < v1 -> 0 <= fst t -> horner [c0; c1; c2; c3; c4; 1] t <> (0, 0).
Proof.
  intros r3 r1 s2 v1 P0 P4 P3 P2 P1 T. set (A0 := cre c0). set (B0 := cmul (cre v1) t).
  set (A1 := cadd (cmul (cre (s2 / v1)) (cmul t B0)) A0). set (A2 := cadd (cmul (cre (r3 / s2)) (cmul t A1)) B0). set (A3 := cadd (cmul (cre (c4 / r3)) (cmul t A2)) A1). set (A4 := cadd (cmul (cre (1 / c4)) (cmul t A3)) A2).
  assert (D : forall x y, 0 < x -> 0 < y -> 0 < x / y) by (intros; apply Rdiv_lt_0_compat; auto).
  assert (H0 : 0 <= re2 A0 B0). { unfold re2, A0, B0. simpl. assert (0 <= v1 * fst t) by (apply Rmult_le_pos; lra). nra. }
  assert (H1 : 0 <= re2 A1 B0) by (apply re2_step; auto). assert (H2 : 0 <= re2 A2 A1) by (apply re2_step; auto; rewrite re2_sym; exact H1).
  assert (H3 : 0 <= re2 A3 A2) by (apply re2_step; auto; rewrite re2_sym; exact H2). assert (H4 : 0 <= re2 A4 A3) by (apply re2_step; auto; [apply D; lra|rewrite re2_sym; exact H3]).
  assert (E1 : A1 = cadd (cmul (cre s2) (cmul t t)) (cre c0)) by (unfold A1, B0, A0; destruct t as [a b]; apply cx_eq; simpl; field; lra).
  assert (E2 : A2 = cadd (cmul (cre r3) (cmul t (cmul t t))) (cmul (cre r1) t)).
  { unfold A2. rewrite E1. unfold B0. destruct t as [a b]. apply cx_eq; simpl; unfold v1; field; lra. }
  assert (E3 : A3 = cadd (cadd (cmul (cre c4) (cmul (cmul t t) (cmul t t))) (cmul (cre c2) (cmul t t))) (cre c0)).
  { unfold A3. rewrite E1, E2. destruct t as [a b]. apply cx_eq; simpl; unfold s2; field; lra. }
  assert (E4 : cadd A4 A3 = horner [c0; c1; c2; c3; c4; 1] t).
  { unfold A4. rewrite E3, E2. destruct t as [a b]. apply cx_eq; simpl; unfold r1, r3; field; lra. }
  intros Z. rewrite <- E4 in Z.
  assert (Z3 : A3 = (0, 0)). { destruct A4 as [p q], A3 as [r s]. unfold cadd in Z. simpl in Z. injection Z as Zp Zq. unfold re2 in H4. simpl in H4. assert (p = - r) by lra. assert (q = - s) by lra. subst p q. assert (r = 0) by nra. assert (s = 0) by nra. subst. reflexivity. }
  assert (Q : forall k t A B, B = (0, 0) -> cadd (cmul (cre k) (cmul t B)) A = (0, 0) -> A = (0, 0)).
  { intros k [a b] [p q] B -> E. unfold cadd, cmul, cre in E. simpl in E. injection E as E' E''. apply cx_eq; simpl; lra. }
  assert (Z4 : A4 = (0, 0)). { rewrite Z3 in Z. destruct A4 as [p q]. unfold cadd in Z. simpl in Z. injection Z as Zp Zq. apply cx_eq; simpl; lra. }
  assert (Z2 : A2 = (0, 0)) by (exact (Q _ _ _ _ Z3 Z4)). assert (Z1 : A1 = (0, 0)) by (exact (Q _ _ _ _ Z2 Z3)). assert (ZB : B0 = (0, 0)) by (exact (Q _ _ _ _ Z1 Z2)). assert (ZA : A0 = (0, 0)) by (exact (Q _ _ _ _ ZB Z1)).
  unfold A0, cre in ZA. injection ZA as ZA. lra.
Qed.
Lemma d3_nz t : 0 <= fst t -> horner d3 t <> (0, 0).
Proof. intros T. unfold d3. apply hurwitz; auto; cbv zeta; lra. Qed.

(** The other: its argument stays in a narrow sector. *)
Lemma minus_plus l z : horner_minus l z = horner l (csub (cre 0) z).
Proof. induction l as [|c [|d l] IH]; [reflexivity|reflexivity|]. cbn [horner_minus horner] in *. rewrite IH. apply cx_eq; simpl; ring. Qed.
Lemma sector c0 c1 c2 c3 c4 c5 c6 c7 p q : 0 < c0 -> 0 < c1 -> 0 < c2 -> 0 < c3 -> 0 < c4 -> 0 < c5 -> 0 < c6 -> 0 < c7 -> 0 < p -> q * q <= 17 / 100 * (p * p) ->
  horner [c0; c1; c2; c3; c4; c5; c6; c7] (p, q) <> (0, 0).
Proof.
  intros P0 P1 P2 P3 P4 P5 P6 P7 P S Z. set (r := q * q) in *.
  assert (Hr : 0 <= r) by (unfold r; nra). assert (Pp : 0 < p * p) by nra.
  assert (Im : snd (horner [c0; c1; c2; c3; c4; c5; c6; c7] (p, q)) = q * (c1 + c2 * (2 * p) + c3 * (3 * (p * p) - r) + c4 * (4 * p * (p * p - r)) + c5 * (5 * (p * p) * (p * p) - 10 * (p * p) * r + r * r) +
    c6 * (2 * p * (3 * (p * p) * (p * p) - 10 * (p * p) * r + 3 * (r * r))) + c7 * (7 * (p * p) * (p * p) * (p * p) - 35 * (p * p) * (p * p) * r + 21 * (p * p) * (r * r) - r * r * r))).
  { unfold r. simpl. ring. }
  assert (Re : q = 0 -> fst (horner [c0; c1; c2; c3; c4; c5; c6; c7] (p, q)) = c0 + p * (c1 + p * (c2 + p * (c3 + p * (c4 + p * (c5 + p * (c6 + p * c7))))))).
  { intros ->. simpl. ring. }
  rewrite Z in Im, Re. cbn [fst snd] in Im, Re. set (x := p * p) in *.
  assert (G3 : 0 < 3 * x - r) by lra. assert (G4 : 0 < 4 * p * (x - r)) by (apply Rmult_lt_0_compat; lra).
  assert (G5 : 0 < 5 * x * x - 10 * x * r + r * r) by nra. assert (G6 : 0 < 2 * p * (3 * x * x - 10 * x * r + 3 * (r * r))) by (apply Rmult_lt_0_compat; [lra|nra]).
  assert (G7 : 0 < 7 * x * x * x - 35 * x * x * r + 21 * x * (r * r) - r * r * r). { assert (0 < x * x) by nra. assert (x * x * r <= 17 / 100 * (x * x * x)) by nra. assert (0 <= r * r) by nra. assert (r * r * r <= x * (r * r)) by nra. assert (0 <= x * (r * r)) by nra. assert (0 < x * x * x) by nra. lra. }
  assert (G2 : 0 < 2 * p) by lra.
  assert (K2 := Rmult_lt_0_compat _ _ P2 G2). assert (K3 := Rmult_lt_0_compat _ _ P3 G3). assert (K4 := Rmult_lt_0_compat _ _ P4 G4). assert (K5 := Rmult_lt_0_compat _ _ P5 G5). assert (K6 := Rmult_lt_0_compat _ _ P6 G6). assert (K7 := Rmult_lt_0_compat _ _ P7 G7).
  set (s := c1 + _ + _ + _ + _ + _ + _) in Im. assert (Ps : 0 < s) by (unfold s; lra). assert (Eq : q = 0) by (destruct (Rmult_integral q s (eq_sym Im)); lra).
  specialize (Re Eq). assert (L : forall c y, 0 < c -> 0 < y -> 0 < c + p * y) by (intros c y Pc Py; assert (0 < p * y) by (apply Rmult_lt_0_compat; auto); lra).
  assert (0 < c0 + p * (c1 + p * (c2 + p * (c3 + p * (c4 + p * (c5 + p * (c6 + p * c7))))))) by (repeat (apply L; [assumption|]); assumption). lra.
Qed.
Lemma d4_nz x a : 0 <= a -> a <= 195 / 1000 * Rabs x -> 0 < Rabs x -> horner_minus d4 (cmul (a, - x) (a, - x)) <> (0, 0).
Proof.
  intros A L P. rewrite minus_plus. assert (X : Rabs x * Rabs x = x * x) by (rewrite <- Rabs_mult; apply Rabs_right; nra). assert (Pa : a * a <= 39 / 1000 * (x * x)) by (rewrite <- X; nra). assert (Px : 0 < x * x) by nra.
  replace (csub (cre 0) (cmul (a, - x) (a, - x))) with (x * x - a * a, 2 * a * x) by (apply cx_eq; simpl; ring). unfold d4. apply sector; try lra.
  replace (2 * a * x * (2 * a * x)) with (4 * (a * a) * (x * x)) by ring. assert (0 <= a * a) by nra. assert (961 / 1000 * (x * x) <= x * x - a * a) by lra.
  assert ((961 / 1000 * (x * x)) * (961 / 1000 * (x * x)) <= (x * x - a * a) * (x * x - a * a)) by nra. nra.
Qed.

Lemma ltP x y : reflect (x < y) (ltb x y). Proof. unfold ltb. destruct Rlt_dec; constructor; lra. Qed.
Lemma leP x y : reflect (x <= y) (leb x y). Proof. unfold leb. destruct Rle_dec; constructor; lra. Qed.

(** The line shape is a finite number for every position and every width that is not negative. *)
Theorem C76_line_finite : forall x a, 0 <= a -> exists y, voigt x a = Some y.
Proof.
  intros x a A. unfold voigt. set (t := (a, - x)). set (u := cmul t t). assert (Px := Rabs_pos x).
  assert (E3 : exists y, approx3 t = Some y) by (apply cdiv_some, d3_nz; exact A).
  assert (E1 : 75 / 100 <= a -> exists y, approx1 t = Some y).
  { intros L. apply cdiv_some. intros Z. apply (f_equal fst) in Z as Z1. apply (f_equal snd) in Z as Z2. simpl in Z1, Z2. assert (x = 0) by nra. subst x. nra. }
  assert (E2 : 75 / 100 <= a -> exists y, approx2 t u = Some y).
  { intros L. apply cdiv_some. intros Z. apply (f_equal fst) in Z as Z1. apply (f_equal snd) in Z as Z2. unfold u, t in Z1, Z2. cbn [fst snd cadd cmul cre] in Z1, Z2.
    set (p := a * a - - x * - x) in *. set (q := a * - x + - x * a) in *. assert (Eq : q * (3 + 2 * p) = 0) by lra. destruct (Rmult_integral _ _ Eq) as [Q|Q]; [|nra].
    assert (x = 0) by (unfold q in Q; nra). assert (0 < p) by (unfold p; subst x; nra). rewrite Q in Z1. nra. }
  assert (E4 : a < 75 / 100 -> (Rabs x + a < 55 / 10 -> 195 / 1000 * Rabs x - 176 / 1000 <= a -> False) -> exists y, option_map (fun z => csub (cexp u) z) (approx4 t u) = Some y).
  { intros L N. destruct (cdiv_some (cmul t (horner_minus n4 u)) (horner_minus d4 u)) as [y E]; [|unfold approx4; rewrite E; eexists; reflexivity].
    destruct (Rlt_dec (Rabs x + a) (55 / 10)) as [C|C]; [destruct (Rle_dec (195 / 1000 * Rabs x - 176 / 1000) a) as [D|D]; [exfalso; auto|]|]; apply d4_nz; lra. }
  destruct (ltP a (75 / 100)) as [La|La].
  - destruct (ltP (Rabs x + a) (55 / 10)) as [Ls|Ls], (leP (195 / 1000 * Rabs x - 176 / 1000) a) as [Lb|Lb]; cbn [andb negb].
    + destruct E3 as [y ->]. eexists. reflexivity.
    + destruct (E4 La ltac:(intros; lra)) as [y ->]. eexists. reflexivity.
    + destruct (E4 La ltac:(intros; lra)) as [y ->]. eexists. reflexivity.
    + destruct (E4 La ltac:(intros; lra)) as [y ->]. eexists. reflexivity.
  - rewrite !andb_false_r. destruct E3 as [y3 E3], (E1 ltac:(lra)) as [y1 E1'], (E2 ltac:(lra)) as [y2 E2']. rewrite E1', E2', E3.
    destruct (_ && leb (75 / 100) a)%bool; [eexists; reflexivity|]. destruct (_ && ltb a (55 / 10))%bool; [eexists; reflexivity|]. destruct (_ && leb (55 / 10) a)%bool; [eexists; reflexivity|]. destruct (_ || _)%bool; [eexists; reflexivity|]. destruct (eqb a 0); eexists; reflexivity.
Qed.
Print Assumptions C76_line_finite.

(** * The sharp line *)
(** The exponential between two partial sums of its alternating series. *)
Lemma exp_alt X N : 0 <= X <= 1 ->
  sum_f_R0 (tg_alt (fun i => / INR (fact i) * X ^ i)) (S (2 * N)) <= exp (- X) <= sum_f_R0 (tg_alt (fun i => / INR (fact i) * X ^ i)) (2 * N).
Proof.
  intros [X0 X1]. apply alternated_series_ineq.
  - intros n. rewrite fact_simpl, mult_INR. assert (F := INR_fact_lt_0 n). assert (P : 0 <= X ^ n) by (apply pow_le; lra). assert (G : 1 <= INR (S n)) by (rewrite S_INR; assert (G := pos_INR n); lra).
    rewrite Rinv_mult. simpl pow. assert (I : 0 < / INR (fact n)) by (apply Rinv_0_lt_compat; lra). assert (J : 0 < / INR (S n) <= 1). { split; [apply Rinv_0_lt_compat; lra|]. rewrite <- Rinv_1. apply Rinv_le_contravar; lra. }
    assert (K : / INR (S n) * X <= 1) by nra. assert (K0 : 0 <= / INR (S n) * X) by (apply Rmult_le_pos; lra). assert (L : 0 <= / INR (fact n) * X ^ n) by (apply Rmult_le_pos; lra). nra.
  - intros e Pe. destruct (cv_speed_pow_fact X e Pe) as [M HM]. exists M. intros n Ln. specialize (HM n Ln). unfold Rdiv in HM. rewrite Rmult_comm. exact HM.
  - intros e Pe. unfold exp. destruct (exist_exp (- X)) as [l Hl]. simpl. destruct (Hl e Pe) as [M HM]. exists M. intros n Ln. specialize (HM n Ln).
    replace (sum_f_R0 (tg_alt (fun i => / INR (fact i) * X ^ i)) n) with (sum_f_R0 (fun i => / INR (fact i) * (- X) ^ i) n); [exact HM|]. apply sum_eq. intros i _. unfold tg_alt. replace (- X) with (-1 * X) by ring. rewrite Rpow_mult_distr. ring.
Qed.
Definition numx (X : R) : R := ((1088406081 / 4000000) + X * ((-605643823971 / 10000000000) + X * ((458029460799 / 100000000000) + X * ((-16115275817 / 125000000000) + X * (1214321741 / 1250000000000))))).
Definition denx (X : R) : R := ((1088406081 / 4000000) + X * ((2116777572669 / 10000000000) + X * ((788659513897 / 10000000000) + X * ((550882431111 / 25000000000) + X * ((374113390601 / 250000000000) + X * (1)))))).
Lemma fact_Z n z : Z.of_nat (fact n) = z -> INR (fact n) = IZR z. Proof. intros <-. apply INR_IZR_INZ. Qed.
Lemma facts : INR (fact 0) = 1 /\ INR (fact 1) = 1 /\ INR (fact 2) = 2 /\ INR (fact 3) = 6 /\ INR (fact 4) = 24 /\ INR (fact 5) = 120 /\ INR (fact 6) = 720 /\ INR (fact 7) = 5040 /\ INR (fact 8) = 40320.
Proof. repeat split; apply fact_Z; vm_compute; reflexivity. Qed.
Lemma exp_t7 X : 0 <= X <= 1 -> 1 - X + X ^ 2 / 2 - X ^ 3 / 6 + X ^ 4 / 24 - X ^ 5 / 120 + X ^ 6 / 720 - X ^ 7 / 5040 <= exp (- X).
Proof.
  intros H. destruct (exp_alt X 3 H) as [L _]. destruct facts as [E0 [E1 [E2 [E3 [E4 [E5 [E6 [E7 _]]]]]]]]. change (S (2 * 3)) with 7%nat in L. unfold tg_alt in L. cbn [sum_f_R0] in L.
  rewrite E0, E1, E2, E3, E4, E5, E6, E7 in L. simpl pow in *. lra.
Qed.
Lemma exp_t8 X : 0 <= X <= 1 -> exp (- X) <= 1 - X + X ^ 2 / 2 - X ^ 3 / 6 + X ^ 4 / 24 - X ^ 5 / 120 + X ^ 6 / 720 - X ^ 7 / 5040 + X ^ 8 / 40320.
Proof.
  intros H. destruct (exp_alt X 4 H) as [_ L]. destruct facts as [E0 [E1 [E2 [E3 [E4 [E5 [E6 [E7 E8]]]]]]]]. change (2 * 4)%nat with 8%nat in L. unfold tg_alt in L. cbn [sum_f_R0] in L.
  rewrite E0, E1, E2, E3, E4, E5, E6, E7, E8 in L. simpl pow in *. lra.
Qed.
Lemma denx_pos X : 0 <= X -> 0 < denx X.
Proof. intros H. unfold denx. assert (L : forall c y, 0 < c -> 0 < y -> 0 < c + X * y) by (intros c y Pc Py; assert (0 <= X * y) by (apply Rmult_le_pos; lra); lra). repeat (apply L; [lra|]). lra. Qed.
(** Numerator, denominator and the sums of the series, times a number. *)
Definition nl : list Z := [680253800625000; -151410955992750; 11450736519975; -322305516340; 2428643482]%Z.
Definition dl : list Z := [680253800625000; 529194393167250; 197164878474250; 55088243111100; 3741133906010; 2500000000000]%Z.
Definition t7 : list Z := [5040; -5040; 2520; -840; 210; -42; 7; -1]%Z.
Definition t8 : list Z := [40320; -40320; 20160; -6720; 1680; -336; 56; -8; 1]%Z.
Lemma nl_ok X : 2500000000000 * numx X = zev nl X. Proof. unfold numx, nl. cbn [zev]. lra. Qed.
Lemma dl_ok X : 2500000000000 * denx X = zev dl X. Proof. unfold denx, dl. cbn [zev]. lra. Qed.
Lemma t7_ok X : 5040 * (1 - X + X ^ 2 / 2 - X ^ 3 / 6 + X ^ 4 / 24 - X ^ 5 / 120 + X ^ 6 / 720 - X ^ 7 / 5040) = zev t7 X. Proof. unfold t7. cbn [zev]. lra. Qed.
Lemma t8_ok X : 40320 * (1 - X + X ^ 2 / 2 - X ^ 3 / 6 + X ^ 4 / 24 - X ^ 5 / 120 + X ^ 6 / 720 - X ^ 7 / 5040 + X ^ 8 / 40320) = zev t8 X. Proof. unfold t8. cbn [zev]. lra. Qed.
Lemma above X : 0 <= X <= 815 / 1000 -> 0 <= zev (ladd (lmul (ladd (lsc 20000 t7) [5040%Z]) dl) (lsc (-100800000) nl)) X.
Proof. apply (zev_pos 815 1000); [lia|lia|vm_compute; reflexivity]. Qed.
Lemma below X : 0 <= X <= 815 / 1000 -> 0 <= zev (ladd (lmul (ladd (lsc (-20000) t8) [40320%Z]) dl) (lsc 806400000 nl)) X.
Proof. apply (zev_pos 815 1000); [lia|lia|vm_compute; reflexivity]. Qed.
Lemma close_line X : 0 <= X <= 815 / 1000 -> Rabs (numx X / denx X - exp (- X)) <= 5 / 10 ^ 5.
Proof.
  intros H. assert (D := denx_pos X ltac:(lra)). assert (H1 : 0 <= X <= 1) by lra. assert (T7 := exp_t7 X H1). assert (T8 := exp_t8 X H1).
  assert (U := above X H). assert (V := below X H). rewrite ladd_ok, lmul_ok, ladd_ok, !lsc_ok, <- nl_ok, <- dl_ok, <- t7_ok in U. rewrite ladd_ok, lmul_ok, ladd_ok, !lsc_ok, <- nl_ok, <- dl_ok, <- t8_ok in V. cbn [zev] in U, V. set (e := exp (- X)) in *. clearbody e.
  assert (A : numx X <= (e + 5 / 10 ^ 5) * denx X).
  { set (T := 1 - X + X ^ 2 / 2 - X ^ 3 / 6 + X ^ 4 / 24 - X ^ 5 / 120 + X ^ 6 / 720 - X ^ 7 / 5040) in *. apply Rle_trans with ((T + 5 / 10 ^ 5) * denx X); [|apply Rmult_le_compat_r; lra]. lra. }
  assert (B : (e - 5 / 10 ^ 5) * denx X <= numx X).
  { set (T := 1 - X + X ^ 2 / 2 - X ^ 3 / 6 + X ^ 4 / 24 - X ^ 5 / 120 + X ^ 6 / 720 - X ^ 7 / 5040 + X ^ 8 / 40320) in *. apply Rle_trans with ((T - 5 / 10 ^ 5) * denx X); [apply Rmult_le_compat_r; lra|]. lra. }
  apply Rabs_le. split.
  - apply (Rmult_le_reg_r (denx X)); [exact D|]. replace ((numx X / denx X - e) * denx X) with (numx X - e * denx X) by (field; lra). lra.
  - apply (Rmult_le_reg_r (denx X)); [exact D|]. replace ((numx X / denx X - e) * denx X) with (numx X - e * denx X) by (field; lra). lra.
Qed.

Lemma voigt_sharp x : voigt x 0 = Some (if Rle_dec (Rabs x) (176 / 195) then numx (x * x) / denx (x * x) else exp (- x ^ 2)).
Proof.
  unfold voigt. assert (Px := Rabs_pos x). destruct (ltP 0 (75 / 100)) as [_|N]; [|lra]. set (t := (0, - x)). set (u := cmul t t).
  destruct (Rle_dec (Rabs x) (176 / 195)) as [L|L].
  - destruct (ltP (Rabs x + 0) (55 / 10)) as [_|N]; [|lra]. destruct (leP (195 / 1000 * Rabs x - 176 / 1000) 0) as [_|N]; [|lra]. cbn [andb negb].
    assert (P := denx_pos (x * x) ltac:(nra)).
    assert (E : fst (horner d3 t) * fst (horner d3 t) + snd (horner d3 t) * snd (horner d3 t) = denx (x * x)) by (unfold denx, d3, t; simpl; field).
    unfold approx3, cdiv. rewrite E. destruct Req_EM_T as [Z|_]; [lra|]. cbn [option_map fst]. f_equal. f_equal. unfold numx, n3, d3, t. simpl. field.
  - replace (ltb (Rabs x + 0) (55 / 10) && leb (195 / 1000 * Rabs x - 176 / 1000) 0)%bool with false.
    2:{ symmetry. apply andb_false_iff. right. destruct (leP (195 / 1000 * Rabs x - 176 / 1000) 0); [lra|reflexivity]. }
    cbn [andb negb]. assert (Nz : horner_minus d4 u <> (0, 0)) by (apply d4_nz; lra).
    assert (I : snd u = 0) by (unfold u, t; simpl; ring). assert (Rl : forall l, snd (horner_minus l u) = 0).
    { intros l. induction l as [|c [|d l] IH]; [reflexivity|reflexivity|]. cbn [horner_minus] in *. cbn [snd csub cmul cre]. rewrite I, IH. ring. }
    destruct (cdiv_some (cmul t (horner_minus n4 u)) _ Nz) as [y E]. unfold approx4. rewrite E. cbn [option_map]. f_equal.
    assert (Y : fst y = 0). { unfold cdiv in E. destruct Req_EM_T as [Z|Z]; [discriminate|]. apply (f_equal (option_map fst)) in E. cbn [option_map fst] in E. assert (E' : forall x y : R, Some x = Some y -> y = x) by (intros ? ? W; injection W; auto). apply E' in E. rewrite E, (Rl d4).
      replace (snd (horner_minus d4 u)) with 0 by (symmetry; apply Rl). unfold cmul at 1. cbn [fst]. rewrite (Rl n4). unfold t at 1 2. cbn [fst snd]. unfold Rdiv. ring. }
    cbn [fst csub cexp]. rewrite Y, I, cos_0. unfold u, t. cbn [fst cmul snd]. replace (0 * 0 - - x * - x) with (- x ^ 2) by ring. ring.
Qed.

(** A mode without width: the line shape is the Gaussian away from the centre and within 5e-5 of it everywhere; near the
    centre it is not the Gaussian. *)
Theorem C76_line_sharp : forall x, exists y, voigt x 0 = Some y /\ Rabs (y - exp (- x ^ 2)) <= 5 / 10 ^ 5 /\ (176 / 195 < Rabs x -> y = exp (- x ^ 2)).
Proof.
  intros x. rewrite voigt_sharp. eexists. split; [reflexivity|]. destruct Rle_dec as [L|L].
  - split; [|lra]. replace (x ^ 2) with (x * x) by ring. apply close_line. assert (X : Rabs x * Rabs x = x * x) by (rewrite <- Rabs_mult; apply Rabs_right; nra). assert (P := Rabs_pos x). nra.
  - split; [|auto]. rewrite Rminus_eq_0, Rabs_R0. lra.
Qed.
Print Assumptions C76_line_sharp.
Theorem C76_line_exact_refuted : exists x y, voigt x 0 = Some y /\ y <> exp (- x ^ 2).
Proof.
  exists (1 / 2), (numx (1 / 2 * (1 / 2)) / denx (1 / 2 * (1 / 2))). rewrite voigt_sharp. split; [destruct Rle_dec as [_|N]; [reflexivity|rewrite Rabs_right in N by lra; lra]|].
  assert (T7 := exp_t7 (1 / 4) ltac:(lra)). assert (T8 := exp_t8 (1 / 4) ltac:(lra)). replace (- (1 / 2) ^ 2) with (- (1 / 4)) by field. unfold numx, denx. lra.
Qed.
Print Assumptions C76_line_exact_refuted.

(** Far from the centre or for a wide line the shape is the Lorentzian, within two percent. *)
Theorem C76_line_wide : forall x a, 75 / 100 <= a -> 15 <= Rabs x + a -> let l := a / (sqrt PI * (x ^ 2 + a ^ 2)) in
  exists y, voigt x a = Some y /\ Rabs (y - l) <= 2 / 100 * l.
Proof.
  intros x a A S l. set (R2 := x ^ 2 + a ^ 2) in *. assert (P2 := Rabs_pos x). assert (Q2 : Rabs x ^ 2 = x ^ 2) by apply pow2_abs.
  assert (B2 : 112 <= R2).
  { assert (H : 15 * 15 <= (Rabs x + a) * (Rabs x + a)) by (apply Rmult_le_compat; lra). assert (H' := pow2_ge_0 (Rabs x - a)). replace ((Rabs x - a) ^ 2) with (Rabs x ^ 2 + a ^ 2 - 2 * (Rabs x * a)) in H' by ring. replace ((Rabs x + a) * (Rabs x + a)) with (Rabs x ^ 2 + a ^ 2 + 2 * (Rabs x * a)) in H by ring. unfold R2. rewrite Q2 in *. lra. }
  set (D := (5 / 10 + (a * a - - x * - x)) * (5 / 10 + (a * a - - x * - x)) + (0 + (a * - x + - x * a)) * (0 + (a * - x + - x * a))).
  assert (ED : D = R2 ^ 2 + a ^ 2 - x ^ 2 + 1 / 4) by (unfold D, R2; field). assert (BD : R2 ^ 2 - R2 <= D) by (rewrite ED; unfold R2; nra). assert (PD : 0 < D) by nra.
  assert (E : voigt x a = Some (5641896 / 10 ^ 7 * a * (R2 + 1 / 2) / D)).
  { unfold voigt. destruct (ltP a (75 / 100)) as [N|_]; [lra|]. rewrite !andb_false_r. destruct (ltP (Rabs x + a) (55 / 10)) as [N|_]; [lra|]. destruct (ltP (Rabs x + a) 15) as [N|_]; [lra|]. cbn [andb].
    replace (leb 15 a || leb 15 (Rabs x + a))%bool with true by (destruct (leP 15 (Rabs x + a)); [rewrite orb_true_r; reflexivity|lra]).
    unfold approx1, cdiv. cbn [fst snd cadd cmul cre]. fold D. destruct Req_EM_T as [Z|_]; [lra|]. cbn [option_map fst]. apply f_equal. clearbody D. unfold R2. field. lra. }
  exists (5641896 / 10 ^ 7 * a * (R2 + 1 / 2) / D). split; [exact E|]. clear E.
  destruct PI_bounds as [B1 B3]. assert (S0 := sqrt_lt_R0 PI ltac:(lra)). assert (SS := sqrt_sqrt PI ltac:(lra)). assert (U : sqrt PI < 17726 / 10000) by (apply Rnot_le_lt; intros C; nra). assert (V : 17723 / 10000 < sqrt PI) by (apply Rnot_le_lt; intros C; nra).
  set (s := sqrt PI) in *. assert (Pl : 0 < l) by (unfold l; apply Rdiv_lt_0_compat; [lra|apply Rmult_lt_0_compat; lra]).
  set (k := 5641896 / 10 ^ 7 * s). assert (Bk : 9998 / 10000 <= k <= 10002 / 10000) by (unfold k; lra).
  replace (5641896 / 10 ^ 7 * a * (R2 + 1 / 2) / D - l) with (l * ((k * ((R2 + 1 / 2) * R2) - D) / D)) by (unfold l, k; field; lra).
  rewrite Rabs_mult, (Rabs_right l) by lra. rewrite Rmult_comm. apply Rmult_le_compat_r; [lra|].
  assert (Bn : - (2 / 100 * D) <= k * ((R2 + 1 / 2) * R2) - D <= 2 / 100 * D).
  { set (T := (R2 + 1 / 2) * R2). assert (HT : 0 < T) by (unfold T; nra). assert (H1 : T - D <= 3 / 2 * R2) by (unfold T; rewrite ED; unfold R2; nra). assert (H2 : - (1 / 2 * R2 + 1 / 4) <= T - D) by (unfold T; rewrite ED; unfold R2; nra).
    assert (KT : 9998 / 10000 * T <= k * T <= 10002 / 10000 * T) by (split; apply Rmult_le_compat_r; lra). assert (R2 * 111 <= R2 ^ 2 - R2) by nra. lra. }
  set (X := k * ((R2 + 1 / 2) * R2) - D) in *. clearbody X. assert (EX : X / D * D = X) by (field; lra). apply Rabs_le. split; apply (Rmult_le_reg_r D); try exact PD; rewrite EX; lra.
Qed.
Print Assumptions C76_line_wide.
Example C76_line_wide_case : 75 / 100 <= 1 /\ 15 <= Rabs (-20) + 1.
Proof. rewrite Rabs_left by lra. lra. Qed.

(** C44: the time-of-flight resolution matrix is the inverse covariance of a flight. *)
From Coq Require Import String List ZArith Reals Lra Lia Psatz.
From Coquelicot Require Import Coquelicot.
From Verif Require Import Base LinAlg EnergyModel LatticeModel KinModel MatModel MatInv CompModel TofModel.
Import ListNotations.
Local Open Scope R_scope.

(** ** A flight, from first principles *)
(** Nine numbers: the time from the first to the second chopper, the time from the second chopper to the detector, the distances
    first to second chopper, second chopper to sample, sample to detector, and horizontal and vertical angle of the incident and of
    the scattered path. *)
Definition incoming (x : vec) : R := x 2%nat / x 0%nat.
Definition time_left (x : vec) : R := x 1%nat - x 3%nat / incoming x.
Definition outgoing (x : vec) : R := x 4%nat / time_left x.
(** Unit vector with horizontal angle [t] and elevation [f]; a point of a vertical cylinder of unit radius. *)
Definition on_sphere (t f : R) (i : nat) : R := nth i [cos t * cos f; sin t * cos f; sin f] 0.
Definition on_cylinder (t f : R) (i : nat) : R := nth i [cos t; sin t; tan f] 0.
Definition place (sph : bool) : R -> R -> nat -> R := if sph then on_sphere else on_cylinder.
(** Momentum transfer in inverse Angstrom (three components) and energy transfer in meV. *)
Definition observed (k : constants) (sph : bool) (x : vec) (i : nat) : R :=
  if Nat.ltb i 3
  then k_m k / k_hbar k * (incoming x * on_sphere (x 5%nat) (x 6%nat) i - outgoing x * place sph (x 7%nat) (x 8%nat) i) / 10 ^ 10
  else 1 / 2 * k_m k * (incoming x ^ 2 - outgoing x ^ 2) / (k_e k / 10 ^ 3).
Definition upd (x : vec) (p : nat) (s : R) : vec := fun q => if Nat.eqb q p then s else x q.
(** The nine numbers of the flight the code works with. *)
Definition numbers (w : flight) : vec := fun p =>
  nth p [w_lpm w / w_vi w; w_lms w / w_vi w + w_lsd w / w_vf w; w_lpm w; w_lms w; w_lsd w; w_ti w; w_fi w; w_t w; w_f w] 0.
Definition regular (w : flight) : Prop :=
  w_vi w <> 0 /\ w_vf w <> 0 /\ w_lpm w <> 0 /\ w_lsd w <> 0 /\ (w_sph w = false -> cos (w_f w) <> 0).

Lemma flight_speeds w : regular w -> incoming (numbers w) = w_vi w /\ outgoing (numbers w) = w_vf w.
Proof.
  intros (A & B & C & D & _). assert (E : incoming (numbers w) = w_vi w) by (unfold incoming, numbers; cbn [nth]; field; auto). split; [exact E|].
  assert (T : time_left (numbers w) = w_lsd w / w_vf w) by (unfold time_left; rewrite E; unfold numbers; cbn [nth]; ring).
  unfold outgoing. rewrite T. unfold numbers. cbn [nth]. field. auto.
Qed.

Lemma tan_derive f : cos f <> 0 -> is_derive (fun x => tan x) f (1 + tan f ^ 2).
Proof.
  intros H. unfold tan. auto_derive; [exact H|]. field_simplify_eq; [|exact H]. pose proof (sin2_cos2 f) as E. unfold Rsqr in E. ring.
Qed.
(** Each entry of the matrix the code builds is the derivative of the observed transfer with respect to one number. *)
Theorem C44_jacobian k w i p : k_hbar k <> 0 -> k_e k <> 0 -> regular w -> (i < 4)%nat -> (p < 9)%nat ->
  is_derive (fun s => observed k (w_sph w) (upd (numbers w) p s) i) (numbers w p) (jacobi k w i p).
Proof.
  intros Kh Ke Rg Hi Hp. destruct (Rg) as (Nvi & Nvf & Npm & Nsd & Nc).
  destruct k as [m hb e]. destruct w as [vi vf lpm lms lsd ti fi t f sph sg]. cbn [k_hbar k_e w_vi w_vf w_lpm w_lms w_lsd w_ti w_fi w_t w_f w_sph] in *.
  assert (Ci : (i = 0 \/ i = 1 \/ i = 2 \/ i = 3)%nat) by lia.
  assert (Cp : (p = 0 \/ p = 1 \/ p = 2 \/ p = 3 \/ p = 4 \/ p = 5 \/ p = 6 \/ p = 7 \/ p = 8)%nat) by lia.
  clear Hi Hp.
  assert (E1 : lpm * / (lpm / vi) = vi) by (field; auto). assert (E2 : lpm / (lpm / vi) = vi) by (field; auto).
  assert (E3 : lms / vi + lsd / vf + - (lms * / vi) = lsd / vf) by (unfold Rdiv; ring).
  assert (E4 : lms / vi + lsd / vf + - (lms / vi) = lsd / vf) by ring.
  assert (E5 : lms / vi + lsd / vf - lms / vi = lsd / vf) by ring.
  assert (Q1 : lpm / vi <> 0) by (apply Rmult_integral_contrapositive_currified; [exact Npm|apply Rinv_neq_0_compat; exact Nvi]).
  assert (Q2 : lsd / vf <> 0) by (apply Rmult_integral_contrapositive_currified; [exact Nsd|apply Rinv_neq_0_compat; exact Nvf]).
  destruct sph; destruct Cp as [->|[->|[->|[->|[->|[->|[->|[->| ->]]]]]]]]; destruct Ci as [->|[->|[->| ->]]];
      unfold observed, upd, numbers, jacobi, outgoing, time_left, incoming, place, on_sphere, on_cylinder, q_derivs, e_derivs, times, r_mat, r_tt, r_ph, r_tt_i, r_ph_i, mx;
      cbn [Nat.ltb Nat.leb Nat.eqb nth map w_vi w_vf w_lpm w_lms w_lsd w_ti w_fi w_t w_f w_sph k_m k_hbar k_e]; auto_derive.
  all: rewrite ?E1, ?E2, ?E3, ?E4, ?E5.
  all: try (repeat split; auto; fail).
  all: try (field; repeat split; auto; fail).
  - eexists. exact (tan_derive f (Nc eq_refl)).
  - replace (Derive (fun x : R => tan x) f) with (1 + tan f ^ 2) by (symmetry; apply is_derive_unique, tan_derive, Nc, eq_refl). field. repeat split; auto.
Qed.
Print Assumptions C44_jacobian.

(** The Holland profile: derivatives, join at the radius of maximum wind, vorticity, bounds. *)
From Coq Require Import Reals Lra Psatz.
From Verif Require Import CircleModel CircleProofs FitRProofs DerivTac WindModel WindProofs.
Open Scope R_scope.

(** a storm: positive shape parameter, pressure deficit and radius *)
Definition storm (p : prof) : Prop := 0 < pbeta p /\ 0 < pdP p /\ 0 < prMax p.
Definition A (p : prof) : R := pdP p * pbeta p / rho.
Definition gg (p : prof) (r : R) : R := A p * delta p r * exp (- delta p r) + (r * pf p / 2) ^ 2.
Definition outerD1 (p : prof) (r : R) : R :=
  (- A p * pbeta p * delta p r * (1 - delta p r) * exp (- delta p r) / r + r * pf p ^ 2 / 2) /
  (2 * sqrt (gg p r)) - Rabs (pf p) / 2.

Lemma rho_pos : 0 < rho. Proof. unfold rho. lra. Qed.
Lemma A_pos p : storm p -> 0 < A p.
Proof.
  intros (Hb & Hd & Hr). unfold A. apply ratio_pos; [|apply rho_pos]. now apply Rmult_lt_0_compat.
Qed.
Lemma delta_pos p r : 0 < delta p r.
Proof. apply Rpower_pos. Qed.
Lemma delta_rMax p : storm p -> delta p (prMax p) = 1.
Proof.
  intros (_ & _ & Hr). unfold delta. replace (prMax p / prMax p) with 1 by (field; lra).
  unfold Rpower. rewrite ln_1, Rmult_0_r. apply exp_0.
Qed.
Lemma gg_ge p r : storm p -> 0 < A p * delta p r * exp (- delta p r) <= gg p r.
Proof.
  intros S. unfold gg. pose proof (pow2_ge_0 (r * pf p / 2)).
  split; [|lra]. apply Rmult_lt_0_compat; [|apply exp_pos].
  apply Rmult_lt_0_compat; [now apply A_pos | apply delta_pos].
Qed.
Lemma gg_pos p r : storm p -> 0 < gg p r.
Proof. intros S. pose proof (gg_ge p r S). lra. Qed.

Lemma delta_deriv p r : storm p -> 0 < r -> derivable_pt_lim (delta p) r (- pbeta p * delta p r / r).
Proof.
  intros (Hb & Hd & Hm) Hr. unfold delta. pose proof (ratio_pos (prMax p) r Hm Hr).
  set (b := pbeta p) in *. set (m := prMax p) in *.
  dsolve; [exact H | lra |].
  set (x := Rpower (m / r) b). field. lra.
Qed.

Lemma gg_deriv p r : storm p -> 0 < r -> derivable_pt_lim (gg p) r
  (- A p * pbeta p * delta p r * (1 - delta p r) * exp (- delta p r) / r + r * pf p ^ 2 / 2).
Proof.
  intros S Hr. unfold gg.
  apply D_eq with ((0 * delta p r + A p * (- pbeta p * delta p r / r)) * exp (- delta p r) +
                   (A p * delta p r) * (exp (- delta p r) * (- (- pbeta p * delta p r / r))) +
                   2 * (r * pf p / 2) * ((1 * pf p + r * 0) / 2)).
  - apply D_plus with (f := fun y => A p * delta p y * exp (- delta p y)) (g := fun y => (y * pf p / 2) ^ 2).
    + apply D_mult with (f := fun y => A p * delta p y) (g := fun y => exp (- delta p y)).
      * apply D_mult with (f := fun _ => A p) (g := delta p); [apply D_const | now apply delta_deriv].
      * apply D_exp with (f := fun y => - delta p y). apply D_opp. now apply delta_deriv.
    + apply D_sq with (f := fun y => y * pf p / 2).
      dsolve; [lra | field].
  - field. lra.
Qed.

Lemma outer_deriv p r : storm p -> 0 < r -> derivable_pt_lim (outer p) r (outerD1 p r).
Proof.
  intros S Hr. pose proof (gg_pos p r S) as G.
  apply D_eq with (/ (2 * sqrt (gg p r)) *
     (- A p * pbeta p * delta p r * (1 - delta p r) * exp (- delta p r) / r + r * pf p ^ 2 / 2) - 1 * Rabs (pf p) / 2).
  - change (outer p) with (fun y => sqrt (gg p y) - y * Rabs (pf p) / 2).
    apply D_minus with (f := fun y => sqrt (gg p y)) (g := fun y => y * Rabs (pf p) / 2).
    + apply D_sqrt; [exact G | now apply gg_deriv].
    + dsolve; [lra | field].
  - unfold outerD1. pose proof (sqrt_lt_R0 _ G). field. lra.
Qed.

(** the numerator of the first derivative *)
Definition num (p : prof) (r : R) : R :=
  - A p * pbeta p * delta p r * (1 - delta p r) * exp (- delta p r) / r + r * pf p ^ 2 / 2.
Lemma num_deriv p : storm p -> derivable_pt_lim (num p) (prMax p)
  (- A p * pbeta p ^ 2 * exp (- (1)) / prMax p ^ 2 + pf p ^ 2 / 2).
Proof.
  intros S. pose proof S as (Hb & Hd & Hm). set (m := prMax p) in *.
  pose proof (delta_deriv p m S Hm) as D. pose proof (delta_rMax p S) as D1. fold m in D1. rewrite D1 in D.
  set (b := pbeta p) in *. set (f := pf p) in *. unfold num. fold b f.
  set (k := A p).
  assert (DE : derivable_pt_lim (fun y => exp (- delta p y)) m (exp (- (1)) * - (- b * 1 / m))).
  { apply D_eq with (exp (- delta p m) * - (- b * 1 / m)); [|rewrite D1; reflexivity].
    apply D_exp with (f := fun y => - delta p y). apply D_opp. exact D. }
  eapply D_eq.
  - apply D_plus with (f := fun y => - k * b * delta p y * (1 - delta p y) * exp (- delta p y) / y)
      (g := fun y => y * f ^ 2 / 2).
    + apply D_div with (f := fun y => - k * b * delta p y * (1 - delta p y) * exp (- delta p y)) (g := fun y => y);
        [lra | | apply D_id].
      apply D_mult with (f := fun y => - k * b * delta p y * (1 - delta p y)) (g := fun y => exp (- delta p y));
        [|exact DE].
      apply D_mult with (f := fun y => - k * b * delta p y) (g := fun y => 1 - delta p y).
      * apply D_mult with (f := fun y => - k * b) (g := delta p); [apply D_const | exact D].
      * apply D_minus with (f := fun _ => 1); [apply D_const | exact D].
    + dsolve; [lra | reflexivity].
  - cbv beta. rewrite D1. field. lra.
Qed.

(** * The formulas at the radius of maximum wind *)
Definition ss (p : prof) : R := sqrt (gg p (prMax p)).
Lemma gg_rMax p : storm p -> gg p (prMax p) = A p / exp 1 + (prMax p * pf p / 2) ^ 2.
Proof.
  intros S. unfold gg. rewrite delta_rMax by exact S. rewrite exp_Ropp. unfold Rdiv. ring.
Qed.
Lemma ss_pos p : storm p -> 0 < ss p.
Proof. intros S. apply sqrt_lt_R0. now apply gg_pos. Qed.
Lemma ss_sq p : storm p -> ss p * ss p = A p / exp 1 + (prMax p * pf p / 2) ^ 2.
Proof. intros S. unfold ss. rewrite sqrt_sqrt by (left; now apply gg_pos). now apply gg_rMax. Qed.
Lemma sqrt4 p : storm p -> sqrt ((4 * pbeta p * pdP p / rho) / exp 1 + (pf p * prMax p) ^ 2) = 2 * ss p.
Proof.
  intros S. pose proof (ss_pos p S) as P.
  apply sqrt_lem_1; [| lra |].
  - pose proof (A_pos p S) as HA. pose proof (pow2_ge_0 (pf p * prMax p)).
    assert (0 < A p / exp 1) by (apply ratio_pos; [exact HA | apply E_pos]).
    replace (4 * pbeta p * pdP p / rho / exp 1) with (4 * (A p / exp 1)); [lra|].
    unfold A. field. pose proof E_pos. pose proof rho_pos. lra.
  - replace (2 * ss p * (2 * ss p)) with (4 * (ss p * ss p)) by ring. rewrite ss_sq by exact S.
    unfold A. field. pose proof E_pos. pose proof rho_pos. lra.
Qed.
Lemma first_formula p : storm p -> firstDerivative p = prMax p * pf p ^ 2 / (4 * ss p) - Rabs (pf p) / 2.
Proof.
  intros S. unfold firstDerivative. cbv zeta. rewrite sqrt4 by exact S.
  pose proof (ss_pos p S) as P. pose proof E_pos as HE.
  replace (4 * pbeta p * pdP p / rho + exp 1 * (pf p * prMax p) ^ 2) with (4 * exp 1 * (ss p * ss p)).
  - field. lra.
  - rewrite ss_sq by exact S. unfold A. field. pose proof rho_pos. lra.
Qed.
Lemma second_formula p : storm p ->
  rawSecond p = (- A p * pbeta p ^ 2 / exp 1 / prMax p ^ 2 + pf p ^ 2 / 2) / (2 * ss p) -
                (prMax p * pf p ^ 2 / 2) ^ 2 / (4 * ss p ^ 3).
Proof.
  intros S. unfold rawSecond. cbv zeta. pose proof (sqrt4 p S) as Q.
  pose proof (ss_pos p S) as P. pose proof E_pos as HE. pose proof rho_pos as HR.
  assert (SQ := ss_sq p S). destruct S as (Hb & Hd & Hm).
  replace (4 * pbeta p * pdP p / (exp 1 * rho)) with (4 * pbeta p * pdP p / rho / exp 1) by (field; lra).
  rewrite Q.
  replace (4 * pbeta p * pdP p * prMax p ^ 2 / rho + exp 1 * (pf p * prMax p ^ 2) ^ 2)
    with (4 * exp 1 * prMax p ^ 2 * (ss p * ss p)).
  2:{ rewrite SQ. unfold A. field. lra. }
  replace ((Rabs (pf p) * prMax p) ^ 2) with (pf p ^ 2 * prMax p ^ 2)
    by (rewrite Rpow_mult_distr, <- !Rsqr_pow2, <- Rsqr_abs; reflexivity).
  assert (F2 : prMax p ^ 2 * pf p ^ 2 = 4 * (ss p * ss p) - 4 * A p / exp 1) by (rewrite SQ; field; lra).
  assert (AA : pdP p = A p * rho / pbeta p) by (unfold A; field; lra).
  apply Rmult_eq_reg_r with (4 * exp 1 * exp 1 * prMax p ^ 2 * ss p ^ 3).
  2:{ apply Rgt_not_eq. repeat apply Rmult_lt_0_compat; try lra; apply pow_lt; lra. }
  transitivity (A p * (-4 * pbeta p ^ 2 * A p - (-2 + pbeta p ^ 2) * exp 1 * (prMax p ^ 2 * pf p ^ 2)) / 2).
  { rewrite AA at 1 2. field. repeat split; try lra. }
  transitivity ((- A p * pbeta p ^ 2 * exp 1 + exp 1 * exp 1 * (prMax p ^ 2 * pf p ^ 2) / 2) * 2 * (ss p * ss p) -
                exp 1 * exp 1 * (prMax p ^ 2 * pf p ^ 2) ^ 2 / 4).
  2:{ field. repeat split; try lra. }
  rewrite F2. field. lra.
Qed.

Lemma outer_first p : storm p -> derivable_pt_lim (outer p) (prMax p) (firstDerivative p).
Proof.
  intros S. eapply D_eq; [apply outer_deriv; [exact S | apply S]|].
  unfold outerD1. rewrite delta_rMax by exact S. rewrite first_formula by exact S. fold (ss p).
  pose proof (ss_pos p S). destruct S as (_ & _ & ?). field. lra.
Qed.
Lemma outer_second p : storm p -> derivable_pt_lim (outerD1 p) (prMax p) (rawSecond p).
Proof.
  intros S. pose proof (ss_pos p S) as P. pose proof (gg_pos p (prMax p) S) as G.
  pose proof S as (_ & _ & Hm).
  change (outerD1 p) with (fun y => num p y / (2 * sqrt (gg p y)) - Rabs (pf p) / 2).
  eapply D_eq.
  - apply D_minus with (f := fun y => num p y / (2 * sqrt (gg p y))) (g := fun _ => Rabs (pf p) / 2); [|apply D_const].
    apply D_div with (f := num p) (g := fun y => 2 * sqrt (gg p y)).
    + fold (ss p). lra.
    + now apply num_deriv.
    + apply D_mult with (f := fun _ => 2) (g := fun y => sqrt (gg p y)); [apply D_const|].
      apply D_sqrt; [exact G|]. apply gg_deriv; [exact S | exact Hm].
  - cbv beta. fold (ss p). unfold num. rewrite delta_rMax by exact S.
    rewrite second_formula by exact S. rewrite exp_Ropp. pose proof E_pos. field. lra.
Qed.

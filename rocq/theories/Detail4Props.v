(** Further details of the conversions of units and humidity (C47, C48) and of the estimator (C89). *)
From Coq Require Import List ZArith Bool QArith Qabs Lqa Reals String.
From Verif Require Import CellModel CellProofs NumModel NumProofs NumProps FitRModel FitRProofs DerivTac LnProofs EulerProofs NewtonProofs.
Import ListNotations.

Section Conversions.
Open Scope Q_scope.
(** The two further spellings of speeds convert like the unit they stand for. *)
Theorem c47_spellings : forall pi v w, w <> "kmh"%string -> w <> "m/s"%string -> w <> "kph"%string -> w <> "mps"%string ->
  convert pi v "kmh" w = convert pi v "kph" w /\ convert pi v "m/s" w = convert pi v "mps" w /\
  convert pi v "kmh" "mps" = convert pi v "kph" "mps" /\ convert pi v "m/s" "kph" = convert pi v "mps" "kph".
Proof.
  intros pi v w A B C D. unfold convert.
  destruct (String.eqb_spec "kmh" w) as [E|_]; [now rewrite E in A|]. destruct (String.eqb_spec "kph" w) as [E|_]; [now rewrite E in C|].
  destruct (String.eqb_spec "m/s" w) as [E|_]; [now rewrite E in B|]. destruct (String.eqb_spec "mps" w) as [E|_]; [now rewrite E in D|].
  repeat split; reflexivity.
Qed.
Theorem c48_clamp : forall vp sat, (sat == 0 -> vapPrToRH vp sat == 100) /\ (0 < sat -> vp <= 0 -> vapPrToRH vp sat == 0) /\
  (0 < sat -> sat <= vp -> vapPrToRH vp sat == 100).
Proof.
  intros vp sat. unfold vapPrToRH. split; [|split].
  - intros H. apply Qeq_bool_iff in H. rewrite H. reflexivity.
  - intros S V. destruct (Qeq_bool sat 0) eqn:E; [apply Qeq_bool_iff in E; rewrite E in S; now apply Qlt_irrefl in S|].
    assert (H : vp / sat * 100 <= 0).
    { apply Qmult_lt_0_le_reg_r with (z := sat); [exact S|]. assert (vp / sat * 100 * sat == vp * 100) by (field; lra). lra. }
    cbv zeta. destruct (qlt 100 (vp / sat * 100)) eqn:E1; [apply qlt_iff in E1; lra|].
    destruct (qlt (vp / sat * 100) 0) eqn:E2; [reflexivity|]. apply Qle_antisym; [exact H|]. apply Qnot_lt_le. intros C. apply qlt_iff in C. congruence.
  - intros S V. destruct (Qeq_bool sat 0) eqn:E; [apply Qeq_bool_iff in E; rewrite E in S; now apply Qlt_irrefl in S|].
    assert (H : 100 <= vp / sat * 100).
    { apply Qmult_lt_0_le_reg_r with (z := sat); [exact S|]. assert (vp / sat * 100 * sat == vp * 100) by (field; lra). lra. }
    cbv zeta. destruct (qlt 100 (vp / sat * 100)) eqn:E1; [reflexivity|].
    destruct (qlt (vp / sat * 100) 0) eqn:E2; [apply qlt_iff in E2; lra|]. apply Qle_antisym; [|exact H]. apply Qnot_lt_le. intros C. apply qlt_iff in C. congruence.
Qed.
Example c48_clamp_example : vapPrToRH (-1) 20 == 0 /\ vapPrToRH 30 20 == 100. Proof. split; reflexivity. Qed.
(** The mixing ratio of air of a relative humidity belongs to that part of the saturation vapour pressure. *)
Theorem c48_mixing : forall rh es prs, 0 <= rh * es / 100 -> rh * es / 100 < prs -> mixRatToVapPr (rHToMixRat rh es prs) prs == rh * es / 100.
Proof.
  intros rh es prs P L. assert (E : rh / 100 * es == rh * es / 100) by (field; lra). unfold rHToMixRat.
  destruct (NumProps.c48_inverse 3 (rh / 100 * es) prs 0) as [H _]; [lra|lra|lra|]. rewrite H. exact E.
Qed.
Example c48_mixing_example : 0 <= 50 * 20 / 100 /\ 50 * 20 / 100 < 1000. Proof. split; [discriminate|reflexivity]. Qed.
End Conversions.

Section Estimator.
Open Scope R_scope.
(** With shape zero the estimate is the Gumbel distribution of the given mean and second L-moment, to eight digits of the
    scale: its mean is the location plus Euler's constant times the scale, its second L-moment the scale times [ln 2]. *)
Theorem c89_gumbel : exists euler, Un_cv (fun n => harmonic (S n) - ln (INR (S n))) euler /\
  forall gamma l1 l2 t3, 0 < l2 -> 0 < t3 < 1 -> let '(loc, scale, k) := pelgev gamma l1 l2 t3 in
  k = 0 -> Rabs (Gpos t3) < 1 / 100000 -> Rabs (loc + euler * scale - l1) <= scale / 100000000 /\ Rabs (scale * ln 2 - l2) <= scale / 100000000.
Proof.
  destruct euler_value as (g & G & B). exists g. split; [exact G|]. intros gamma l1 l2 t3 L T. unfold pelgev.
  destruct (Rle_dec l2 0); [Lra.lra|]. destruct (Rle_dec 1 (Rabs t3)) as [C|_]; [exfalso; rewrite Rabs_right in C; Lra.lra|].
  destruct (Rlt_dec 0 t3); [|Lra.lra]. cbv zeta. destruct (Rlt_dec (Rabs (Gpos t3)) small) as [_|N]; [|unfold estimate; intros _ C; unfold small in N; Lra.lra].
  intros _ _. pose proof ln2_bounds as L2. assert (P : 0 < l2 / DL2) by (apply Rdiv_lt_0_compat; unfold DL2; Lra.lra).
  set (sc := l2 / DL2) in *. assert (E : l2 = sc * DL2) by (unfold sc; field; unfold DL2; Lra.lra). clearbody sc. subst l2.
  split; apply Rabs_le.
  - replace (l1 - EU * sc + g * sc - l1) with (sc * (g - EU)) by ring. unfold EU.
    split; [apply Rle_trans with (sc * (- (1 / 100000000))); [Lra.lra|apply Rmult_le_compat_l; Lra.lra]|].
    apply Rle_trans with (sc * (1 / 100000000)); [apply Rmult_le_compat_l; Lra.lra|Lra.lra].
  - replace (sc * ln 2 - sc * DL2) with (sc * (ln 2 - DL2)) by ring. unfold DL2.
    split; [apply Rle_trans with (sc * (- (1 / 100000000))); [Lra.lra|apply Rmult_le_compat_l; Lra.lra]|].
    apply Rle_trans with (sc * (1 / 100000000)); [apply Rmult_le_compat_l; Lra.lra|Lra.lra].
Qed.
(** Shape zero is chosen exactly for approximations below 10^-5; the skewness of the Gumbel distribution is one of them. *)
Theorem c89_zero_shape : forall gamma l1 l2 t3, 0 < l2 -> 0 < t3 < 1 -> let '(loc, scale, k) := pelgev gamma l1 l2 t3 in
  (k = 0 <-> Rabs (Gpos t3) < 1 / 100000) /\ (k = 0 \/ k = Gpos t3).
Proof.
  intros gamma l1 l2 t3 L T. unfold pelgev.
  destruct (Rle_dec l2 0); [Lra.lra|]. destruct (Rle_dec 1 (Rabs t3)) as [C|_]; [exfalso; rewrite Rabs_right in C; Lra.lra|].
  destruct (Rlt_dec 0 t3); [|Lra.lra]. cbv zeta. destruct (Rlt_dec (Rabs (Gpos t3)) small) as [S|N]; unfold small in *.
  - split; [split; auto|now left].
  - unfold estimate. split; [|now right]. split; intros H; [|Lra.lra]. rewrite H, Rabs_R0 in N. Lra.lra.
Qed.
Theorem c89_gumbel_skewness : forall gamma l1 l2, 0 < l2 -> let '(loc, scale, k) := pelgev gamma l1 l2 (2 * (ln 3 / ln 2) - 3) in k = 0.
Proof.
  intros gamma l1 l2 L. pose proof ln2_bounds as L2. pose proof ln3_bounds as L3.
  set (p := ln 3 / ln 2). assert (P : 15849625 / 10000000 <= p <= 15849626 / 10000000).
  { assert (E : p * ln 2 = ln 3) by (unfold p; field; Lra.lra). clearbody p. Psatz.nra. }
  clearbody p. assert (T : 0 < 2 * p - 3 < 1) by Lra.lra.
  pose proof (c89_zero_shape gamma l1 l2 (2 * p - 3) L T) as Z. destruct (pelgev gamma l1 l2 (2 * p - 3)) as [[loc scale] k].
  apply (proj1 Z). unfold Gpos. set (z := 1 - (2 * p - 3)). assert (HZ : 8300748 / 10000000 <= z <= 830075 / 1000000) by (unfold z; Lra.lra). clearbody z.
  clear P T Z. cbv zeta.
  assert (Den : 1 / 2 <= 1 + z * (D1 + z * D2)) by (unfold D1, D2; Psatz.nra).
  assert (Num : - (1 / 1000000) <= -1 + z * (C1 + z * (C2 + z * C3)) <= 1 / 1000000).
  { unfold C1, C2, C3. set (u := z - 8300748 / 10000000). replace z with (u + 8300748 / 10000000) by (unfold u; ring). assert (U : 0 <= u <= 2 / 10000000) by (unfold u; Lra.lra). clearbody u.
    assert (0 <= u * u <= u) by Psatz.nra. assert (0 <= u * (u * u) <= u) by Psatz.nra. Lra.lra. }
  set (d := 1 + z * (D1 + z * D2)) in *. set (n := -1 + z * (C1 + z * (C2 + z * C3))) in *. clearbody d n.
  unfold Rdiv. rewrite Rabs_mult, Rabs_inv, (Rabs_right d) by Lra.lra.
  apply (Rmult_lt_reg_r d); [Lra.lra|]. rewrite Rmult_assoc, Rinv_l, Rmult_1_r by Lra.lra.
  apply Rle_lt_trans with (1 / 1000000); [apply Rabs_le; Lra.lra|]. Lra.lra.
Qed.
(** One iteration for very negative skewness is a Newton step: the slope it divides by is the derivative of
    [(1 - 3^-G) / (1 - 2^-G)] up to rounded constants. *)
Theorem c89_newton_step : forall G, 1 <= G -> exists slope,
  derivable_pt_lim (fun g => (1 - Rpower 3 (- g)) / (1 - Rpower 2 (- g))) G slope /\
  exists used, Rabs (used - slope) <= 2 / 100000000 /\
    forall T0, newton T0 1 G = G - ((1 - Rpower 3 (- G)) / (1 - Rpower 2 (- G)) - T0) / used.
Proof.
  intros G HG. pose proof ln2_bounds as L2. pose proof ln3_bounds as L3.
  assert (X : 0 < Rpower 2 (- G) <= 1 / 2).
  { split; [apply exp_pos|]. rewrite Rpower_Ropp. replace (1 / 2) with (/ 2) by Lra.lra. apply Rinv_le_contravar; [Lra.lra|].
    rewrite <- (Rpower_1 2) at 1 by Lra.lra. apply Rle_Rpower; Lra.lra. }
  assert (Y : 0 < Rpower 3 (- G) <= 1 / 3).
  { split; [apply exp_pos|]. rewrite Rpower_Ropp. replace (1 / 3) with (/ 3) by Lra.lra. apply Rinv_le_contravar; [Lra.lra|].
    rewrite <- (Rpower_1 3) at 1 by Lra.lra. apply Rle_Rpower; Lra.lra. }
  assert (DP : forall b, derivable_pt_lim (fun g => 1 - Rpower b (- g)) G (Rpower b (- G) * ln b)).
  { intros b. apply D_eq with (0 - exp (- G * ln b) * (- (1) * ln b + - G * 0)); [|unfold Rpower; ring].
    apply (D_minus (fun _ => 1) (fun g => Rpower b (- g))); [apply D_const|]. unfold Rpower. apply (D_exp (fun g => - g * ln b)).
    apply (D_mult (fun g => - g) (fun _ => ln b)); [|apply D_const]. apply (D_opp (fun g => g)). apply D_id. }
  exists ((Rpower 3 (- G) * ln 3 * (1 - Rpower 2 (- G)) - Rpower 2 (- G) * ln 2 * (1 - Rpower 3 (- G))) / (1 - Rpower 2 (- G)) ^ 2).
  split; [apply (D_div (fun g => 1 - Rpower 3 (- g)) (fun g => 1 - Rpower 2 (- g))); [Lra.lra|apply DP|apply DP]|].
  set (x := Rpower 2 (- G)) in *. set (y := Rpower 3 (- G)) in *.
  exists (((1 - x) * y * DL3 - (1 - y) * x * DL2) / ((1 - x) * (1 - x))). split.
  - replace (((1 - x) * y * DL3 - (1 - y) * x * DL2) / ((1 - x) * (1 - x)) - (y * ln 3 * (1 - x) - x * ln 2 * (1 - y)) / (1 - x) ^ 2)
      with ((y / (1 - x)) * (DL3 - ln 3) - ((x / (1 - x)) * ((1 - y) / (1 - x))) * (DL2 - ln 2)) by (field; Lra.lra).
    assert (I : / (1 - x) <= 2) by (replace 2 with (/ (1 / 2)) by Lra.lra; apply Rinv_le_contravar; Lra.lra).
    assert (I0 : 0 < / (1 - x)) by (apply Rinv_0_lt_compat; Lra.lra).
    assert (A1 : 0 <= y / (1 - x) <= 2 / 3) by (unfold Rdiv at 1 2; split; [apply Rmult_le_pos; Lra.lra|]; apply Rle_trans with (1 / 3 * 2); [apply Rmult_le_compat; Lra.lra|Lra.lra]).
    assert (A2 : 0 <= x / (1 - x) <= 1) by (unfold Rdiv at 1 2; split; [apply Rmult_le_pos; Lra.lra|]; apply Rle_trans with (1 / 2 * 2); [apply Rmult_le_compat; Lra.lra|Lra.lra]).
    assert (A3 : 0 <= (1 - y) / (1 - x) <= 2) by (unfold Rdiv; split; [apply Rmult_le_pos; Lra.lra|]; apply Rle_trans with (1 * 2); [apply Rmult_le_compat; Lra.lra|Lra.lra]).
    set (e := y / (1 - x)) in *. set (f := x / (1 - x)) in *. set (g := (1 - y) / (1 - x)) in *. clearbody e f g.
    assert (A4 : 0 <= f * g <= 2) by (split; [apply Rmult_le_pos; Lra.lra|]; apply Rle_trans with (1 * 2); [apply Rmult_le_compat; Lra.lra|Lra.lra]).
    set (k := f * g) in *. clearbody k. unfold DL2, DL3.
    assert (0 <= e * (10986123 / 10000000 - ln 3) <= 2 / 3 * (2 / 100000000)) by (split; [apply Rmult_le_pos; Lra.lra|]; apply Rmult_le_compat; Lra.lra).
    assert (0 <= k * (ln 2 - 69314718 / 100000000) <= 2 * (1 / 1000000000)) by (split; [apply Rmult_le_pos; Lra.lra|]; apply Rmult_le_compat; Lra.lra).
    apply Rabs_le. Lra.lra.
  - intros T0. cbn [newton]. fold x y. now destruct (Rle_dec _ _).
Qed.
End Estimator.
Print Assumptions c47_spellings.
Print Assumptions c48_clamp.
Print Assumptions c48_mixing.
Print Assumptions c89_gumbel.
Print Assumptions c89_zero_shape.
Print Assumptions c89_gumbel_skewness.
Print Assumptions c89_newton_step.

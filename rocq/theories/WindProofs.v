(** Wind-pressure relations, pressure profiles and the cubic core. *)
From Coq Require Import Reals Lra Psatz.
From Verif Require Import CircleModel CircleProofs FitRProofs DerivTac WindModel.
Open Scope R_scope.

Lemma rle_false a b : rle a b = false <-> b < a.
Proof. unfold rle. destruct (Rle_dec a b); split; intros; try discriminate; try lra; reflexivity. Qed.

(** * vmax and pDiff *)
Lemma toPa_hi p : 10000 <= p -> toPa p = p.
Proof. intros H. unfold toPa. rewrite (proj2 (rlt_false p 10000)) by lra. reflexivity. Qed.
Lemma E_pos : 0 < exp 1. Proof. apply exp_pos. Qed.
Lemma E_ge_2 : 2 <= exp 1. Proof. pose proof (exp_ineq1 1 ltac:(lra)). lra. Qed.

Lemma nsqrt_ok x : 0 <= x -> nsqrt x = WOk (sqrt x).
Proof. intros H. unfold nsqrt. rewrite (proj2 (rlt_false x 0)) by lra. reflexivity. Qed.

Lemma reject pC pE t b r : toPa pE < toPa pC -> vmax pC pE t b r = WValueError.
Proof. intros H. unfold vmax. cbv zeta. rewrite (proj2 (rlt_true (toPa pE) (toPa pC)) H). reflexivity. Qed.

Lemma vmax_wil v pE pC b r : 0 <= v -> pDiff v pE Willoughby b r = WOk pC -> 10000 <= pC ->
  vmax pC pE Willoughby b r = WOk v.
Proof.
  intros Hv H Hp. unfold pDiff in H. injection H as H.
  unfold vmax. cbv zeta. rewrite (toPa_hi pC Hp).
  assert (Hd : toPa pE - pC = (v / (6252 / 10000)) ^ 2) by lra.
  assert (H0 : 0 <= (v / (6252 / 10000)) ^ 2) by apply pow2_ge_0.
  rewrite (proj2 (rlt_false (toPa pE) pC)) by lra.
  rewrite Hd, nsqrt_ok by exact H0. cbn [scaleW].
  rewrite sqrt_pow2 by (apply Rmult_le_pos; [exact Hv | lra]).
  f_equal. lra.
Qed.

Lemma vmax_hol v pE pC b r : 0 <= v -> 0 < b -> 0 < r -> pDiff v pE Holland b r = WOk pC -> 10000 <= pC ->
  vmax pC pE Holland b r = WOk v.
Proof.
  intros Hv Hb Hr H Hp. unfold pDiff in H. injection H as H.
  unfold vmax. cbv zeta. rewrite (toPa_hi pC Hp). pose proof E_pos as HE.
  assert (Hd : toPa pE - pC = r * exp 1 * v ^ 2 / b) by lra.
  assert (H0 : 0 <= r * exp 1 * v ^ 2 / b).
  { apply Rmult_le_pos; [|left; now apply Rinv_0_lt_compat].
    apply Rmult_le_pos; [nra | apply pow2_ge_0]. }
  rewrite (proj2 (rlt_false (toPa pE) pC)) by lra.
  rewrite Hd. replace (b * (r * exp 1 * v ^ 2 / b) / (exp 1 * r)) with (v ^ 2) by (field; lra).
  rewrite nsqrt_ok by apply pow2_ge_0. rewrite sqrt_pow2 by exact Hv. reflexivity.
Qed.

Lemma npow_ok x y : 0 < x -> npow x y = Some (Rpower x y).
Proof. intros H. unfold npow. rewrite (proj2 (rlt_true 0 x) H). reflexivity. Qed.
Lemma npow_0 y : npow 0 y = Some 0.
Proof. unfold npow. rewrite (proj2 (rlt_false 0 0)) by lra. reflexivity. Qed.

Lemma vmax_atk v pE pC b r : 0 <= v -> toPa pE = 101000 -> pDiff v pE Atkinson b r = WOk pC -> 10000 <= pC ->
  vmax pC pE Atkinson b r = WOk v.
Proof.
  intros Hv HpE H Hp. unfold pDiff in H. rewrite HpE in H.
  unfold vmax. cbv zeta. rewrite (toPa_hi pC Hp), HpE.
  destruct (Rle_lt_or_eq_dec 0 v Hv) as [Hpos | <-].
  - assert (Hx : 0 < v / (304 / 100)) by (apply Rmult_lt_0_compat; lra).
    rewrite npow_ok in H by exact Hx. injection H as H.
    set (d := Rpower (v / (304 / 100)) (1 / (644 / 1000))) in *.
    assert (Hd : 0 < d) by apply Rpower_pos.
    rewrite (proj2 (rlt_false 101000 pC)) by lra.
    replace (1010 - pC * (1 / 100)) with d by lra.
    rewrite npow_ok by exact Hd. cbn [ofPow]. unfold d. rewrite Rpower_mult.
    replace (1 / (644 / 1000) * (644 / 1000)) with 1 by lra.
    rewrite Rpower_1 by exact Hx. f_equal. lra.
  - replace (0 / (304 / 100)) with 0 in H by lra. rewrite npow_0 in H. injection H as H.
    rewrite (proj2 (rlt_false 101000 pC)) by lra.
    replace (1010 - pC * (1 / 100)) with 0 by lra. rewrite npow_0. cbn [ofPow]. f_equal. lra.
Qed.

(** the other direction *)
Lemma pDiff_wil pC pE b r v : vmax pC pE Willoughby b r = WOk v -> pDiff v pE Willoughby b r = WOk (toPa pC).
Proof.
  unfold vmax, pDiff. cbv zeta. destruct (rlt (toPa pE) (toPa pC)) eqn:E; [discriminate|].
  apply rlt_false in E. rewrite nsqrt_ok by lra. cbn [scaleW]. intros H. injection H as <-.
  replace (6252 / 10000 * sqrt (toPa pE - toPa pC) / (6252 / 10000)) with (sqrt (toPa pE - toPa pC)) by lra.
  rewrite pow2_sqrt by lra. f_equal. lra.
Qed.
Lemma pDiff_hol pC pE b r v : 0 < b -> 0 < r ->
  vmax pC pE Holland b r = WOk v -> pDiff v pE Holland b r = WOk (toPa pC).
Proof.
  intros Hb Hr. unfold vmax, pDiff. cbv zeta. destruct (rlt (toPa pE) (toPa pC)) eqn:E; [discriminate|].
  apply rlt_false in E. pose proof E_pos as HE.
  assert (H0 : 0 <= b * (toPa pE - toPa pC) / (exp 1 * r)).
  { apply Rmult_le_pos; [apply Rmult_le_pos; lra|].
    left. apply Rinv_0_lt_compat. now apply Rmult_lt_0_compat. }
  rewrite nsqrt_ok by exact H0. intros H. injection H as <-.
  rewrite pow2_sqrt by exact H0. f_equal. field. lra.
Qed.

(** * Pressure profiles *)
Lemma ratio_le r r' x : 0 < x -> 0 < r -> r <= r' -> x / r' <= x / r.
Proof.
  intros Hx Hr H. apply Rmult_le_compat_l; [lra|]. apply Rinv_le_contravar; lra.
Qed.
Lemma ratio_pos x r : 0 < x -> 0 < r -> 0 < x / r.
Proof. intros. apply Rmult_lt_0_compat; [assumption | now apply Rinv_0_lt_compat]. Qed.
Lemma exp_dec_le x y : x <= y -> exp (- y) <= exp (- x).
Proof. intros H. destruct (Rle_lt_or_eq_dec x y H) as [L | ->]; [left; apply exp_increasing; lra | right; reflexivity]. Qed.
Lemma edelta_range x : 0 < x -> 0 < exp (- x) < 1.
Proof.
  intros H. split; [apply exp_pos|]. rewrite <- exp_0. apply exp_increasing. lra.
Qed.
Lemma edelta_mono x beta r r' : 0 < x -> 0 <= beta -> 0 < r -> r <= r' ->
  exp (- Rpower (x / r) beta) <= exp (- Rpower (x / r') beta).
Proof.
  intros Hx Hb Hr H. apply exp_dec_le. apply Rpower_le_pos; [apply ratio_pos; lra | now apply ratio_le | exact Hb].
Qed.

Lemma holland_range pc dP rMax beta r : 0 < dP ->
  pc < prsHolland pc dP rMax beta r < pc + dP.
Proof.
  intros Hd. unfold prsHolland.
  pose proof (edelta_range (Rpower (rMax / r) beta) (Rpower_pos _ _)) as [A B]. nra.
Qed.
Lemma holland_mono pc dP rMax beta r r' : 0 < dP -> 0 < rMax -> 0 <= beta -> 0 < r -> r <= r' ->
  prsHolland pc dP rMax beta r <= prsHolland pc dP rMax beta r'.
Proof.
  intros Hd Hm Hb Hr H. unfold prsHolland.
  pose proof (edelta_mono rMax beta r r' Hm Hb Hr H). nra.
Qed.

Lemma dp2_range dP : 0 < dP -> 0 < dp2of dP < dP.
Proof.
  intros H. unfold dp2of. destruct (rlt dP 1500) eqn:E.
  - apply rlt_true in E.
    assert (B : 799 < 800 + (dP - 800) / 2000 < 801) by lra.
    assert (A : 0 < dP / 1500) by lra. split; [apply Rmult_lt_0_compat; lra|].
    apply Rlt_le_trans with (dP / 1500 * 801); [apply Rmult_lt_compat_l; lra | lra].
  - apply rlt_false in E. lra.
Qed.

Lemma double_range pc dP rMax rMax2 b1 b2 r : 0 < dP ->
  pc < prsDouble pc dP rMax rMax2 b1 b2 r < pc + dP.
Proof.
  intros Hd. unfold prsDouble. cbv zeta. pose proof (dp2_range dP Hd) as [A B].
  pose proof (edelta_range _ (Rpower_pos (rMax / r) (orElse b1 (73 / 10 - pc / 16000)))) as [E1 E2].
  pose proof (edelta_range _ (Rpower_pos (rMax2 / r) (orElse b2 (72 / 10 - pc / 16000)))) as [F1 F2].
  set (e1 := exp _) in *. set (e2 := exp (- Rpower (rMax2 / r) _)) in *.
  set (d2 := dp2of dP) in *. split; nra.
Qed.
Lemma double_mono pc dP rMax rMax2 b1 b2 r r' : 0 < dP -> 0 < rMax -> 0 < rMax2 ->
  0 <= orElse b1 (73 / 10 - pc / 16000) -> 0 <= orElse b2 (72 / 10 - pc / 16000) -> 0 < r -> r <= r' ->
  prsDouble pc dP rMax rMax2 b1 b2 r <= prsDouble pc dP rMax rMax2 b1 b2 r'.
Proof.
  intros Hd Hm Hm2 H1 H2 Hr H. unfold prsDouble. cbv zeta. pose proof (dp2_range dP Hd) as [A B].
  pose proof (edelta_mono rMax _ r r' Hm H1 Hr H) as M1.
  pose proof (edelta_mono rMax2 _ r r' Hm2 H2 Hr H) as M2.
  apply Rplus_le_compat; [apply Rplus_le_compat_l|]; apply Rmult_le_compat_l; lra.
Qed.

Lemma clamp_range b : 8 / 10 <= clamp b <= 22 / 10.
Proof.
  unfold clamp. destruct (rlt b (8 / 10)) eqn:E; [lra|]. apply rlt_false in E.
  destruct (rlt (22 / 10) b) eqn:F; [lra|]. apply rlt_false in F. lra.
Qed.

(** a Willoughby profile that falls away from the centre: rMax = e^4 = 54.6 km, 1 hPa deficit, 10 S *)
Lemma wil_beta_neg : prsWilloughbyBeta (6252 / 10000 * sqrt 100) (exp 4) (-10) < 0.
Proof.
  unfold prsWilloughbyBeta. rewrite ln_exp.
  replace 100 with (10 ^ 2) at 1 by lra. rewrite sqrt_pow2 by lra.
  rewrite Rabs_left by lra. lra.
Qed.
Lemma wil_falls : exists p p', prsWilloughby 100000 100100 (exp 4) (-10) (exp 4) = WOk p /\
  prsWilloughby 100000 100100 (exp 4) (-10) (exp 5) = WOk p' /\ p' < p.
Proof.
  pose proof wil_beta_neg as Hb. set (b := prsWilloughbyBeta _ _ _) in Hb.
  assert (Hv : vmax 100000 100100 Willoughby (13 / 10) (115 / 100) = WOk (6252 / 10000 * sqrt 100)).
  { unfold vmax. cbv zeta. rewrite !toPa_hi by lra. rewrite (proj2 (rlt_false 100100 100000)) by lra.
    replace (100100 - 100000) with 100 by lra. rewrite nsqrt_ok by lra. reflexivity. }
  exists (prsHolland 100000 (100100 - 100000) (exp 4) b (exp 4)),
         (prsHolland 100000 (100100 - 100000) (exp 4) b (exp 5)).
  split; [unfold prsWilloughby; rewrite Hv; reflexivity|].
  split; [unfold prsWilloughby; rewrite Hv; reflexivity|].
  unfold prsHolland.
  assert (A : exp 4 / exp 4 = 1) by (field; pose proof (exp_pos 4); lra).
  assert (B : exp 4 / exp 5 = exp (-1)).
  { replace (-1) with (4 + Ropp 5) by lra. rewrite exp_plus, exp_Ropp. reflexivity. }
  rewrite A, B. unfold Rpower at 1 2. rewrite ln_exp, ln_1, Rmult_0_r, exp_0.
  assert (1 < exp (b * -1)) by (rewrite <- exp_0; apply exp_increasing; lra).
  assert (exp (- exp (b * -1)) < exp (- (1))) by (apply exp_increasing; lra). lra.
Qed.

(** * The cubic core *)
Definition coreD1 (d2 d1 vMax rMax r : R) : R :=
  3 * aa d2 d1 vMax rMax * r ^ 2 + 2 * bb d2 d1 vMax rMax * r + cc d2 d1 vMax rMax.
Lemma core_deriv d2 d1 vMax rMax r :
  derivable_pt_lim (core d2 d1 vMax rMax) r (coreD1 d2 d1 vMax rMax r).
Proof.
  set (a := aa d2 d1 vMax rMax). set (b := bb d2 d1 vMax rMax). set (c := cc d2 d1 vMax rMax).
  unfold core, coreD1. fold a b c.
  dsolve. ring.
Qed.
Lemma coreD1_deriv d2 d1 vMax rMax r :
  derivable_pt_lim (coreD1 d2 d1 vMax rMax) r (6 * aa d2 d1 vMax rMax * r + 2 * bb d2 d1 vMax rMax).
Proof.
  set (a := aa d2 d1 vMax rMax). set (b := bb d2 d1 vMax rMax). set (c := cc d2 d1 vMax rMax).
  unfold coreD1. fold a b c.
  dsolve. ring.
Qed.
Lemma core_0 d2 d1 vMax rMax : core d2 d1 vMax rMax 0 = 0.
Proof. unfold core. ring. Qed.
Lemma core_rMax d2 d1 vMax rMax : rMax <> 0 -> core d2 d1 vMax rMax rMax = vMax.
Proof. intros H. unfold core, cc, bb, aa. field. exact H. Qed.
Lemma coreD1_rMax d2 d1 vMax rMax : coreD1 d2 d1 vMax rMax rMax = d1.
Proof. unfold coreD1, cc. ring. Qed.
Lemma coreD2_rMax d2 d1 vMax rMax : rMax <> 0 -> 6 * aa d2 d1 vMax rMax * rMax + 2 * bb d2 d1 vMax rMax = d2.
Proof. intros H. unfold bb. field. Qed.

(** Hemispheres, compiled subroutines, the Jelesnianski and Rankine profiles, the surface winds. *)
From Coq Require Import Reals Lra Psatz Bool.
From Verif Require Import CircleModel CircleProofs FitRProofs DerivTac WindModel WindProofs WindProofs2 WindProofs3.
Open Scope R_scope.

Lemma rsign_pos x : 0 < x -> rsign x = 1.
Proof. intros H. unfold rsign. rewrite (proj2 (rlt_false x 0)), (proj2 (rlt_true 0 x)) by lra. reflexivity. Qed.
Lemma rsign_neg x : x < 0 -> rsign x = -1.
Proof. intros H. unfold rsign. rewrite (proj2 (rlt_true x 0)) by lra. reflexivity. Qed.
Lemma rsign_0 : rsign 0 = 0.
Proof. unfold rsign. rewrite (proj2 (rlt_false 0 0)) by lra. reflexivity. Qed.
Lemma rsign_opp x : rsign (- x) = - rsign x.
Proof.
  destruct (Rtotal_order x 0) as [H | [-> | H]].
  - rewrite (rsign_neg x), rsign_pos by lra. lra.
  - rewrite Ropp_0, rsign_0. lra.
  - rewrite (rsign_pos x), rsign_neg by lra. lra.
Qed.
Lemma rsign_abs x : Rabs (rsign x) <= 1.
Proof.
  destruct (Rtotal_order x 0) as [H | [-> | H]].
  - rewrite rsign_neg by lra. rewrite Rabs_left; lra.
  - rewrite rsign_0, Rabs_R0. lra.
  - rewrite rsign_pos by lra. rewrite Rabs_right; lra.
Qed.
Lemma rsign_mul x : rsign x * x = Rabs x.
Proof.
  destruct (Rtotal_order x 0) as [H | [-> | H]].
  - rewrite rsign_neg, Rabs_left by lra. lra.
  - rewrite rsign_0, Rabs_R0. lra.
  - rewrite rsign_pos, Rabs_right by lra. lra.
Qed.
Lemma fsign_sign a f : f <> 0 -> 0 <= a -> fsign a f = rsign f * a.
Proof.
  intros Hf Ha. unfold fsign. rewrite Rabs_right by lra.
  destruct (Rtotal_order f 0) as [H | [H | H]]; [| now contradiction |].
  - rewrite (proj2 (rlt_true f 0)), rsign_neg by lra. lra.
  - rewrite (proj2 (rlt_false f 0)), rsign_pos by lra. lra.
Qed.
Lemma fsign_abs a f : Rabs (fsign a f) = Rabs a.
Proof. unfold fsign. destruct (rlt f 0); [rewrite Rabs_Ropp|]; apply Rabs_Rabsolu. Qed.

(** * The other hemisphere *)
Definition mirror (p : prof) : prof :=
  {| pf := - pf p; pdP := pdP p; prMax := prMax p; pbeta := pbeta p; pvMax := pvMax p |}.
Lemma mirror_second p : secondDerivative (mirror p) = secondDerivative p.
Proof.
  unfold secondDerivative, rawSecond. cbn [mirror pf pdP prMax pbeta]. cbv zeta.
  rewrite Rabs_Ropp. replace ((- pf p * prMax p) ^ 2) with ((pf p * prMax p) ^ 2) by ring.
  replace ((- pf p * prMax p ^ 2) ^ 2) with ((pf p * prMax p ^ 2) ^ 2) by ring. reflexivity.
Qed.
Lemma mirror_first p : firstDerivative (mirror p) = firstDerivative p.
Proof.
  unfold firstDerivative. cbn [mirror pf pdP prMax pbeta]. cbv zeta. rewrite Rabs_Ropp.
  replace ((- pf p * prMax p) ^ 2) with ((pf p * prMax p) ^ 2) by ring.
  replace ((- pf p) ^ 2) with (pf p ^ 2) by ring. reflexivity.
Qed.
Lemma mirror_outer p r : outer (mirror p) r = outer p r.
Proof.
  unfold outer, delta. cbn [mirror pf pdP prMax pbeta]. rewrite Rabs_Ropp.
  replace ((r * - pf p / 2) ^ 2) with ((r * pf p / 2) ^ 2) by (unfold Rdiv; ring). reflexivity.
Qed.
Lemma mirror_outerVort p r : outerVort (mirror p) r = outerVort p r.
Proof.
  unfold outerVort, delta. cbn [mirror pf pdP prMax pbeta]. cbv zeta. rewrite Rabs_Ropp.
  replace ((r * - pf p / 2) ^ 2) with ((r * pf p / 2) ^ 2) by (unfold Rdiv; ring).
  replace ((- pf p) ^ 2) with (pf p ^ 2) by ring. reflexivity.
Qed.
Lemma mirror_velocity p r : hollandVelocity (mirror p) r = option_map Ropp (hollandVelocity p r).
Proof.
  unfold hollandVelocity. rewrite mirror_second. destruct (secondDerivative p) as [d2|]; [|reflexivity].
  cbn [option_map]. f_equal. unfold hollandAbs. rewrite mirror_first, mirror_outer. cbn [mirror pf prMax pvMax].
  rewrite rsign_opp. destruct (rle r (prMax p)); ring.
Qed.
Lemma mirror_vorticity p r : hollandVorticity (mirror p) r = option_map Ropp (hollandVorticity p r).
Proof.
  unfold hollandVorticity. rewrite mirror_second. destruct (secondDerivative p) as [d2|]; [|reflexivity].
  cbn [option_map]. f_equal. unfold hollandVortAbs. rewrite mirror_first, mirror_outerVort. cbn [mirror pf prMax pvMax].
  rewrite rsign_opp. destruct (rle r (prMax p)); ring.
Qed.
Lemma mirror_jel p r : jelVelocity (mirror p) r = - jelVelocity p r.
Proof. unfold jelVelocity. cbn [mirror pf prMax pvMax]. rewrite rsign_opp. ring. Qed.
Lemma mirror_rank p r : rankVelocity (mirror p) r = - rankVelocity p r.
Proof. unfold rankVelocity. cbn [mirror pf prMax pvMax]. rewrite rsign_opp. ring. Qed.

(** the double vortex: the same storm is weaker in the northern hemisphere *)
Lemma double_asym p b1 b2 m2 r : 0 < pf p -> 0 < r ->
  doubleOuter (mirror p) b1 b2 m2 r = - doubleOuter p b1 b2 m2 r - r * pf p.
Proof.
  intros Hf Hr. unfold doubleOuter. cbv zeta. cbn [mirror pf pdP prMax]. rewrite rsign_opp, Rabs_Ropp.
  rewrite rsign_pos, Rabs_right by lra.
  replace ((r * - pf p / 2) ^ 2) with ((r * pf p / 2) ^ 2) by (unfold Rdiv; ring). field.
Qed.

(** * Compiled and interpreted *)
Lemma compiled_velocity p r : hstorm p -> 1 / 2 <= pdP p -> pbeta p ^ 2 <= 12 -> pf p <> 0 -> 0 < r ->
  fhollandVelocity p r = hollandVelocity p r.
Proof.
  intros H Hd Hb Hf Hr. unfold fhollandVelocity, hollandVelocity.
  destruct (secondDerivative p) as [d2|] eqn:E; [|reflexivity]. f_equal.
  apply fsign_sign; [exact Hf|]. now apply holland_cyclonic.
Qed.
Lemma compiled_vorticity p r : pf p <> 0 ->
  (forall z, hollandVorticity p r = Some z -> 0 <= rsign (pf p) * z) ->
  fhollandVorticity p r = hollandVorticity p r.
Proof.
  intros Hf H. unfold fhollandVorticity, hollandVorticity in *.
  destruct (secondDerivative p) as [d2|]; [|reflexivity]. f_equal.
  apply fsign_sign; [exact Hf|]. specialize (H _ eq_refl).
  assert (S : rsign (pf p) * rsign (pf p) = 1).
  { destruct (Rtotal_order (pf p) 0) as [L | [L | L]]; [| now contradiction |].
    - rewrite rsign_neg by lra. lra.
    - rewrite rsign_pos by lra. lra. }
  rewrite <- Rmult_assoc, S in H. lra.
Qed.

(** * Jelesnianski and Rankine *)
Lemma jel_bound p r : 0 < pvMax p -> 0 < prMax p -> 0 < r -> Rabs (jelVelocity p r) <= pvMax p.
Proof.
  intros Hv Hm Hr. unfold jelVelocity. rewrite Rabs_mult.
  assert (D : 0 < prMax p ^ 2 + r ^ 2) by (pose proof (pow_lt r 2 Hr); pose proof (pow2_ge_0 (prMax p)); lra).
  assert (P : 0 < 2 * pvMax p * prMax p * r / (prMax p ^ 2 + r ^ 2)).
  { apply ratio_pos; [repeat apply Rmult_lt_0_compat; lra | exact D]. }
  rewrite (Rabs_right (_ / _)) by lra.
  assert (L : 2 * pvMax p * prMax p * r / (prMax p ^ 2 + r ^ 2) <= pvMax p).
  { apply Rmult_le_reg_r with (prMax p ^ 2 + r ^ 2); [exact D|].
    unfold Rdiv. rewrite Rmult_assoc, Rinv_l by lra. pose proof (pow2_ge_0 (prMax p - r)). nra. }
  pose proof (rsign_abs (pf p)). pose proof (Rabs_pos (rsign (pf p))). nra.
Qed.
Lemma rpow_le_1 x k : 0 < x <= 1 -> 0 <= k -> Rpower x k <= 1.
Proof.
  intros [H0 H1] Hk. pose proof (Rpower_le_pos x 1 k H0 H1 Hk) as H.
  assert (E : Rpower 1 k = 1) by (unfold Rpower; rewrite ln_1, Rmult_0_r; apply exp_0). lra.
Qed.
Lemma rank_bound p r : 0 < pvMax p -> 0 < prMax p -> 0 < r -> Rabs (rankVelocity p r) <= pvMax p.
Proof.
  intros Hv Hm Hr. unfold rankVelocity. rewrite Rabs_mult.
  set (w := if rle r (prMax p) then pvMax p * (r / prMax p) else pvMax p * Rpower (prMax p / r) (1 / 2)).
  assert (W : 0 <= w <= pvMax p).
  { unfold w. destruct (rle r (prMax p)) eqn:E.
    - apply rle_true in E. pose proof (ratio_pos r (prMax p) Hr Hm).
      assert (r / prMax p <= 1) by (apply Rmult_le_reg_r with (prMax p); [exact Hm | unfold Rdiv; rewrite Rmult_assoc, Rinv_l; lra]).
      nra.
    - apply rle_false in E. pose proof (Rpower_pos (prMax p / r) (1 / 2)).
      assert (prMax p / r <= 1) by (apply Rmult_le_reg_r with r; [exact Hr | unfold Rdiv; rewrite Rmult_assoc, Rinv_l; lra]).
      pose proof (ratio_pos (prMax p) r Hm Hr).
      pose proof (rpow_le_1 (prMax p / r) (1 / 2) ltac:(lra) ltac:(lra)). nra. }
  rewrite (Rabs_right w) by lra.
  pose proof (rsign_abs (pf p)). pose proof (Rabs_pos (rsign (pf p))). nra.
Qed.
Lemma jel_rMax p : prMax p <> 0 -> jelVelocity p (prMax p) = rsign (pf p) * pvMax p.
Proof.
  intros H. unfold jelVelocity. f_equal. field. intros E. apply H. nra.
Qed.
Lemma rank_rMax p : prMax p <> 0 -> rankVelocity p (prMax p) = rsign (pf p) * pvMax p.
Proof.
  intros H. unfold rankVelocity. rewrite (proj2 (rle_true _ _)) by lra. f_equal. field. exact H.
Qed.

Lemma jel_deriv p r : prMax p <> 0 -> derivable_pt_lim (jelVelocity p) r
  (rsign (pf p) * (2 * pvMax p * prMax p * (prMax p ^ 2 - r ^ 2) / (prMax p ^ 2 + r ^ 2) ^ 2)).
Proof.
  intros H. unfold jelVelocity.
  assert (D : prMax p ^ 2 + r ^ 2 <> 0).
  { pose proof (pow2_ge_0 r). assert (0 < prMax p ^ 2); [|lra]. pose proof (Rsqr_pos_lt _ H) as Q. unfold Rsqr in Q. lra. }
  set (m := prMax p) in *. set (v := pvMax p). set (s := rsign (pf p)).
  dsolve; [exact D|]. field. exact D.
Qed.
Lemma jel_cont p r : prMax p <> 0 -> continuity_pt (jelVelocity p) r.
Proof. intros H. apply derivable_continuous_pt. eexists. now apply jel_deriv. Qed.

Lemma pow_deriv p r : 0 < prMax p -> 0 < r -> derivable_pt_lim (fun y => Rpower (prMax p / y) (1 / 2)) r
  (- (1 / 2) * Rpower (prMax p / r) (1 / 2) / r).
Proof.
  intros Hm Hr. pose proof (ratio_pos (prMax p) r Hm Hr).
  dsolve; [exact H | lra |]. set (x := Rpower _ _). field. lra.
Qed.

Lemma rank_cont p r : 0 < prMax p -> 0 < r -> continuity_pt (rankVelocity p) r.
Proof.
  intros Hm Hr. set (m := prMax p) in *.
  set (f1 := fun y => rsign (pf p) * (pvMax p * (y / m))).
  set (f2 := fun y => rsign (pf p) * (pvMax p * Rpower (m / y) (1 / 2))).
  assert (C1 : continuity_pt f1 r).
  { apply derivable_continuous_pt. eexists. unfold f1. dsolve; [lra | reflexivity]. }
  assert (C2 : continuity_pt f2 r).
  { apply derivable_continuous_pt. eexists. unfold f2. pose proof (ratio_pos m r Hm Hr). dsolve; [assumption | lra | reflexivity]. }
  assert (V : forall y, rankVelocity p y = if rle y m then f1 y else f2 y).
  { intros y. unfold rankVelocity, f1, f2. fold m. destruct (rle y m); reflexivity. }
  assert (J : f1 m = f2 m).
  { unfold f1, f2. replace (m / m) with 1 by (field; lra). unfold Rpower. rewrite ln_1, Rmult_0_r, exp_0. reflexivity. }
  apply eps_cont. intros e He.
  destruct (cont_eps _ _ C1 e He) as (d1 & H1 & K1). destruct (cont_eps _ _ C2 e He) as (d2 & H2 & K2).
  destruct (Rtotal_order r m) as [L | [E | L]].
  - exists (Rmin d1 (m - r)). split; [apply Rmin_pos; lra|]. intros y Hy.
    pose proof (Rmin_l d1 (m - r)). pose proof (Rmin_r d1 (m - r)).
    assert (y < m) by (apply Rabs_def2 in Hy; lra).
    rewrite !V, !(proj2 (rle_true _ _)) by lra. apply K1. lra.
  - subst r. exists (Rmin d1 d2). split; [apply Rmin_pos; lra|]. intros y Hy.
    pose proof (Rmin_l d1 d2). pose proof (Rmin_r d1 d2).
    rewrite !V. rewrite (proj2 (rle_true m m)) by lra. destruct (rle y m); [apply K1 | rewrite J; apply K2]; lra.
  - exists (Rmin d2 (r - m)). split; [apply Rmin_pos; lra|]. intros y Hy.
    pose proof (Rmin_l d2 (r - m)). pose proof (Rmin_r d2 (r - m)).
    assert (m < y) by (apply Rabs_def2 in Hy; lra).
    rewrite !V, !(proj2 (rle_false _ _)) by lra. apply K2. lra.
Qed.

(** The line of maximum wind. *)
From Coq Require Import Reals Lra Psatz.
From Verif Require Import CircleModel CircleProofs WindModel WindProofs WindProofs5 WindProofs6 SphereModel SphereProofs.
Open Scope R_scope.

(** McConochie: with the gradient wind and its largest value fixed, the speed at azimuth [lam] *)
Lemma mc_speed_moving f rMax Vabs V r lam vFm th tm :
  speed (mcconochie f rMax Vabs V r lam vFm th tm) =
  1069 / 1000 * sfc (Rabs (V + 1 / 2 * (1 + cos (th + tm * PI / 180 - lam)) * vFm * (V / Vabs))).
Proof.
  unfold speed, mcconochie, sfc. cbn [fst snd]. set (w := V + _). set (phi := mcInflow f rMax r - lam).
  replace ((swrf w * w * sin phi * (1069 / 1000)) ^ 2 + (swrf w * w * cos phi * (1069 / 1000)) ^ 2)
    with ((swrf w * w * (1069 / 1000))²)
    by (pose proof (sc2 phi) as Q; unfold Rsqr; transitivity ((swrf w * w * (1069 / 1000)) ^ 2 * (sin phi ^ 2 + cos phi ^ 2)); [rewrite Q; ring | ring]).
  rewrite sqrt_Rsqr_abs, !Rabs_mult.
  assert (S : swrf (Rabs w) = swrf w) by (unfold swrf; now rewrite Rabs_Rabsolu).
  pose proof (swrf_range w) as B. rewrite (Rabs_right (swrf w)) by lra. rewrite S, (Rabs_right (1069 / 1000)) by lra. ring.
Qed.
Lemma line_max f rMax Vabs V r lam vFm th tm : 0 <= V -> 0 < Vabs -> 0 <= vFm ->
  speed (mcconochie f rMax Vabs V r lam vFm th tm) <=
  speed (mcconochie f rMax Vabs V r (th + tm * PI / 180) vFm th tm) + 1 / 100.
Proof.
  intros HV HA Hv. rewrite !mc_speed_moving.
  rewrite (Rminus_diag_eq (th + tm * PI / 180) (th + tm * PI / 180) eq_refl), cos_0.
  set (c := cos (th + tm * PI / 180 - lam)). assert (C : -1 <= c <= 1) by apply COS_bound.
  assert (P : 0 <= vFm * (V / Vabs)) by (apply Rmult_le_pos; [lra|]; apply Rmult_le_pos; [lra | left; now apply Rinv_0_lt_compat]).
  set (k := vFm * (V / Vabs)) in *.
  replace (1 / 2 * (1 + c) * vFm * (V / Vabs)) with (1 / 2 * (1 + c) * k) by (unfold k; ring).
  replace (1 / 2 * (1 + 1) * vFm * (V / Vabs)) with k by (unfold k; set (q := V / Vabs); field).
  assert (L : 0 <= 1 / 2 * (1 + c) * k <= k) by (split; nra).
  rewrite !Rabs_right by lra.
  pose proof (sfc_tol (V + 1 / 2 * (1 + c) * k) (V + k) ltac:(lra)). lra.
Qed.
(** the default of 70 degrees reaches the model as 0.0004 radians *)
Lemma line_small : 0 <= passedThetaMax 70 * PI / 180 <= 1 / 1000.
Proof.
  unfold passedThetaMax, radians. pose proof PI_range as P. split.
  - assert (0 <= PI * PI * PI) by (apply Rmult_le_pos; [apply Rmult_le_pos|]; lra). lra.
  - assert (A : PI * PI <= 16) by nra. assert (B : PI * PI * PI <= 64) by nra. lra.
Qed.
Lemma line_wrong : exists lam, let far := radians 70 in
  speed (mcconochie 1 1 10 10 1 far 10 0 (passedThetaMax 70)) + 1 / 2 <
  speed (mcconochie 1 1 10 10 1 lam 10 0 (passedThetaMax 70)).
Proof.
  exists (passedThetaMax 70 * PI / 180). cbv zeta. rewrite !mc_speed_moving.
  pose proof line_small as L. set (e := passedThetaMax 70 * PI / 180) in *.
  replace (0 + e - e) with 0 by ring. rewrite cos_0.
  assert (C : cos (0 + e - radians 70) <= 1 / 2).
  { replace (0 + e - radians 70) with (- (radians 70 - e)) by ring. rewrite cos_neg, <- cos_PI3.
    pose proof PI_range. apply cos_decr_1; unfold radians; lra. }
  assert (C' : -1 <= cos (0 + e - radians 70)) by apply COS_bound.
  set (c := cos _) in *.
  replace (10 + 1 / 2 * (1 + 1) * 10 * (10 / 10)) with 20 by field.
  replace (10 + 1 / 2 * (1 + c) * 10 * (10 / 10)) with (15 + 5 * c) by field.
  rewrite !Rabs_right by lra. pose proof (swrf_range (15 + 5 * c)) as B.
  assert (F : sfc 20 = (77 / 100 - (431 / 100 * (20 - 195 / 10)) / 1000) * 20).
  { unfold sfc, swrf. rewrite Rabs_right by lra. cbv zeta.
    rewrite (proj2 (rle_false 45 20)) by lra. rewrite (proj2 (rle_true (195 / 10) 20)) by lra. reflexivity. }
  rewrite F. unfold sfc. nra.
Qed.

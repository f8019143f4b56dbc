(** Surface wind reduction, and concrete storms used as witnesses. *)
From Coq Require Import Reals Lra Psatz Bool.
From Verif Require Import CircleModel CircleProofs FitRProofs DerivTac WindModel WindProofs WindProofs2 WindProofs3 WindProofs4 WindProofs5.
Open Scope R_scope.

Definition speed (w : R * R) : R := sqrt (fst w ^ 2 + snd w ^ 2).
Definition sfc (a : R) : R := swrf a * a.
Lemma mc_speed f rMax Vabs V r lam th tm :
  speed (mcconochie f rMax Vabs V r lam 0 th tm) = sfc (Rabs V) * (1069 / 1000).
Proof.
  unfold speed, mcconochie. cbv zeta. cbn [fst snd]. rewrite Rmult_0_r, Rmult_0_l, Rplus_0_r.
  set (phi := mcInflow f rMax r - lam). pose proof (sc phi) as H.
  assert (S : swrf V = swrf (Rabs V)) by (unfold swrf; rewrite Rabs_Rabsolu; reflexivity).
  replace ((swrf V * V * sin phi * (1069 / 1000)) ^ 2 + (swrf V * V * cos phi * (1069 / 1000)) ^ 2)
    with ((swrf V * (1069 / 1000)) ^ 2 * (V ^ 2) * (cos phi * cos phi + sin phi * sin phi)) by field.
  rewrite H, Rmult_1_r, (sq_abs V).
  replace ((swrf V * (1069 / 1000)) ^ 2 * (Rabs V * Rabs V))
    with ((swrf V * (1069 / 1000) * Rabs V) * (swrf V * (1069 / 1000) * Rabs V)) by ring.
  rewrite sqrt_square; [unfold sfc; rewrite S; ring|].
  pose proof (swrf_range V). pose proof (Rabs_pos V). apply Rmult_le_pos; [lra | assumption].
Qed.
Lemma sfc_cases a : 0 <= a ->
  (45 <= a /\ sfc a = 66 / 100 * a) \/
  (195 / 10 <= a < 45 /\ sfc a = 77 / 100 * a - 431 / 100000 * (a - 195 / 10) * a) \/
  (6 <= a < 195 / 10 /\ sfc a = 81 / 100 * a - 293 / 100000 * (a - 6) * a) \/
  (a < 6 /\ sfc a = 81 / 100 * a).
Proof.
  intros H. unfold sfc, swrf. cbv zeta. rewrite Rabs_right by lra.
  destruct (rle 45 a) eqn:E1; [apply rle_true in E1; left; split; [lra | ring]|]. apply rle_false in E1.
  destruct (rle (195 / 10) a) eqn:E2; [apply rle_true in E2; right; left; split; [lra | field]|]. apply rle_false in E2.
  destruct (rle 6 a) eqn:E3; [apply rle_true in E3; right; right; left; split; [lra | field]|]. apply rle_false in E3.
  right; right; right. split; [lra | ring].
Qed.
Lemma sfc_tol a b : 0 <= a <= b -> sfc a <= sfc b + 9 / 1000.
Proof.
  intros H. destruct (sfc_cases a ltac:(lra)) as [[A ->] | [[A ->] | [[A ->] | [A ->]]]];
  destruct (sfc_cases b ltac:(lra)) as [[B ->] | [[B ->] | [[B ->] | [B ->]]]]; try lra; try nra.
Qed.
Lemma sfc_drop : sfc (194999 / 10000) > sfc (195 / 10) /\ 194999 / 10000 < 195 / 10.
Proof.
  split; [|lra]. unfold sfc, swrf. cbv zeta. rewrite !Rabs_right by lra.
  rewrite (proj2 (rle_false 45 _)), (proj2 (rle_false (195 / 10) (194999 / 10000))), (proj2 (rle_true 6 (194999 / 10000))) by lra.
  rewrite (proj2 (rle_false 45 _)), (proj2 (rle_true (195 / 10) (195 / 10))) by lra. lra.
Qed.

(** * Witnesses *)
Lemma coriolis_30 : coriolis 30 = 2 * PI / 86400.
Proof. unfold coriolis. replace (30 * PI / 180) with (PI / 6) by field. rewrite sin_PI6. field. Qed.
Lemma PI_range : 3 < PI <= 4.
Proof. pose proof PI2_3_2. pose proof PI_4. lra. Qed.

(** a weak storm: the Schloemer profile with a deficit of 1 Pa at 30 N *)
Definition weak : prof := mkSchloemer 30 101301 101300 50000.
Lemma weak_storm : hstorm weak /\ pdP weak = 1.
Proof.
  unfold weak, mkSchloemer, mkHolland, hstorm, storm. cbn [pf pdP prMax pbeta pvMax].
  rewrite !toPa_hi by lra. repeat split; lra.
Qed.
Lemma weak_none : secondDerivative weak = None.
Proof.
  destruct weak_storm as [H D]. apply (proj1 (second_none weak H ltac:(lra))).
  pose proof (vmax_sq weak H) as V. replace (pvMax weak ^ 2) with (pvMax weak * pvMax weak) by ring. rewrite V.
  unfold A. rewrite D. assert (B : pbeta weak = 1) by reflexivity. assert (M : prMax weak = 50000) by reflexivity.
  assert (F : pf weak = 2 * PI / 86400) by (apply coriolis_30). rewrite B, M, F.
  pose proof E_ge_2 as E. pose proof PI_range as P. unfold rho.
  assert (X : 1 * 1 / (115 / 100) / exp 1 <= 1 / 2).
  { apply Rmult_le_reg_r with (exp 1); [lra|]. unfold Rdiv at 1. rewrite Rmult_assoc, Rinv_l by lra. lra. }
  nra.
Qed.

(** a sharply peaked storm: shape parameter 4 *)
Definition sharp : prof := mkHolland 30 101300 96300 1000 4.
Lemma sharp_storm : hstorm sharp /\ pdP sharp = 5000.
Proof.
  unfold sharp, mkHolland, hstorm, storm. cbn [pf pdP prMax pbeta pvMax].
  rewrite !toPa_hi by lra. repeat split; lra.
Qed.
Lemma sharp_facts : pbeta sharp = 4 /\ prMax sharp = 1000 /\ pf sharp = 2 * PI / 86400 /\ 5000 <= pvMax sharp ^ 2 /\ 70 <= pvMax sharp.
Proof.
  destruct sharp_storm as [H D]. pose proof (vmax_sq sharp H) as V. pose proof (vmax_pos sharp H) as P.
  assert (B : pbeta sharp = 4) by reflexivity.
  assert (S : 5000 <= pvMax sharp ^ 2).
  { replace (pvMax sharp ^ 2) with (pvMax sharp * pvMax sharp) by ring. rewrite V. unfold A. rewrite D, B.
    pose proof exp_le_3. pose proof E_pos. unfold rho.
    apply Rmult_le_reg_r with (exp 1); [lra|]. unfold Rdiv at 1. rewrite Rmult_assoc, Rinv_l by lra. lra. }
  repeat split; try assumption; [apply coriolis_30|]. nra.
Qed.
Lemma sharp_reversed : exists d2, secondDerivative sharp = Some d2 /\ hollandAbs sharp d2 10 < 0.
Proof.
  destruct sharp_storm as [H D]. destruct sharp_facts as (B & M & F & V2 & V).
  pose proof PI_range as PI_r. pose proof (second_short sharp H) as E. pose proof (ss_pos sharp (proj1 H)) as P.
  pose proof (ss_sq' sharp H) as Q. pose proof (first_formula sharp (proj1 H)) as D1.
  destruct (second_none sharp H ltac:(lra)) as [N _].
  destruct (secondDerivative sharp) as [d2|] eqn:SD.
  2:{ exfalso. pose proof (proj1 N eq_refl) as L. rewrite B, M, F in L. nra. }
  exists d2. split; [reflexivity|].
  destruct (proj2 (second_none sharp H ltac:(lra)) d2 SD) as [E0 _]. rewrite <- E0 in E. clear N SD E0.
  unfold hollandAbs. rewrite M. rewrite (proj2 (rle_true 10 1000)) by lra.
  rewrite core_form by lra.
  rewrite M, F in *. rewrite B in E. set (v := pvMax sharp) in *. set (s := ss sharp) in *.
  set (d1 := firstDerivative sharp) in *.
  assert (X : 0 <= (1000 * (2 * PI / 86400)) ^ 2 <= 1 / 100) by nra.
  set (F2 := (1000 * (2 * PI / 86400)) ^ 2) in *.
  assert (D1l : - (1 / 1000) <= d1).
  { rewrite D1. rewrite Rabs_right by lra.
    assert (0 <= 1000 * (2 * PI / 86400) ^ 2 / (4 * s)).
    { apply Rmult_le_pos; [pose proof (pow2_ge_0 (2 * PI / 86400)); lra | left; apply Rinv_0_lt_compat; lra]. }
    lra. }
  assert (S1 : s <= 101 / 100 * v) by (apply Rnot_lt_le; intros L; nra).
  assert (S0 : v <= s) by (apply Rnot_lt_le; intros L; nra).
  assert (K : d2 * 1000 ^ 2 <= - 7 * v).
  { rewrite E. apply Rmult_le_reg_r with (4 * s ^ 3).
    - apply Rmult_lt_0_compat; [lra | apply pow_lt; exact P].
    - replace (v ^ 2 * (-2 * 4 ^ 2 * s ^ 2 + F2) / (4 * s ^ 3) * (4 * s ^ 3)) with (v * (v * (-32 * s ^ 2 + F2))) by (field; lra).
      replace (-7 * v * (4 * s ^ 3)) with (v * (-28 * (s * (s * s)))) by ring.
      apply Rmult_le_compat_l; [lra|].
      assert (s * (s * s) <= 101 / 100 * v * (s * s)) by (apply Rmult_le_compat_r; nra).
      assert (1 <= s * s) by nra. nra. }
  nra.
Qed.

Lemma sharp_disagree : fhollandVelocity sharp 10 <> hollandVelocity sharp 10.
Proof.
  destruct sharp_reversed as (d2 & S & N). unfold fhollandVelocity, hollandVelocity. rewrite S.
  destruct sharp_facts as (_ & _ & F & _). pose proof PI_range.
  intros E. apply (f_equal (fun o => match o with Some x => x | None => 0 end)) in E. cbv beta iota in E. rewrite (rsign_pos (pf sharp)) in E by (rewrite F; lra).
  unfold fsign in E. rewrite (proj2 (rlt_false (pf sharp) 0)) in E by (rewrite F; lra).
  rewrite Rabs_left in E by exact N. lra.
Qed.

(** a storm on the equator *)
Definition equator : prof := mkHolland 0 101300 96300 50000 2.
Lemma equator_storm : hstorm equator /\ pdP equator = 5000 /\ pf equator = 0.
Proof.
  unfold equator, mkHolland, hstorm, storm. cbn [pf pdP prMax pbeta pvMax].
  rewrite !toPa_hi by lra. repeat split; try lra.
  unfold coriolis. replace (0 * PI / 180) with 0 by field. rewrite sin_0. ring.
Qed.
Lemma equator_winds : hollandVelocity equator 50000 = Some 0 /\
  fhollandVelocity equator 50000 = Some (pvMax equator) /\ 0 < pvMax equator.
Proof.
  destruct equator_storm as (H & D & F). pose proof (vmax_pos equator H) as V.
  destruct (second_none equator H ltac:(lra)) as [N _].
  unfold hollandVelocity, fhollandVelocity.
  destruct (secondDerivative equator) as [d2|].
  2:{ exfalso. pose proof (proj1 N eq_refl) as L. rewrite F in L.
      assert (B : pbeta equator = 2) by reflexivity. rewrite B in L. nra. }
  assert (M : prMax equator = 50000) by reflexivity.
  unfold hollandAbs. rewrite (proj2 (rle_true 50000 (prMax equator))) by lra.
  assert (CR : core d2 (firstDerivative equator) (pvMax equator) (prMax equator) 50000 = pvMax equator)
    by (rewrite M; apply core_rMax; lra).
  rewrite CR, F, rsign_0. unfold fsign. rewrite (proj2 (rlt_false 0 0)) by lra.
  split; [f_equal; ring|]. split; [f_equal; apply Rabs_right; lra | exact V].
Qed.

(** The sign of the vorticity, the compiled wind field, and the surface wind models. *)
From Coq Require Import Reals Lra Psatz Bool.
From Verif Require Import CircleModel CircleProofs FitRProofs DerivTac WindModel WindProofs WindProofs2 WindProofs3 WindProofs4.
Open Scope R_scope.

(** * Vorticity does not change sign for shape parameters up to 2 *)
Lemma outerVort_nonneg p r : storm p -> pbeta p <= 2 -> 0 < r -> 0 <= outerVort p r.
Proof.
  intros S Hb Hr. pose proof (gg_pos p r S) as G. pose proof (sqrt_lt_R0 _ G) as Q.
  assert (QQ : sqrt (gg p r) * sqrt (gg p r) = gg p r) by (apply sqrt_sqrt; lra).
  pose proof rho_pos as HR. pose proof (delta_pos p r) as D. pose proof (gg_ge p r S) as [W _].
  pose proof S as (Hb0 & _ & _).
  unfold outerVort. cbv zeta.
  replace (pbeta p * pdP p * delta p r * exp (- delta p r) / rho + (r * pf p / 2) ^ 2) with (gg p r)
    by (unfold gg, A; field; lra).
  set (s := sqrt (gg p r)) in *. set (d := delta p r) in *. set (e := exp (- d)) in *.
  replace (pbeta p ^ 2 * pdP p * d ^ 2 * e / (2 * rho * r) - pbeta p ^ 2 * pdP p * d * e / (2 * rho * r) + r * pf p ^ 2 / 4)
    with ((- (A p * d * e) * pbeta p * (1 - d) / 2 + (r * pf p / 2) ^ 2) / r) by (unfold A; field; lra).
  pose proof (Rabs_pos (pf p)) as F. pose proof (pow2_ge_0 (r * pf p / 2)) as Y.
  assert (K : 0 <= (- (A p * d * e) * pbeta p * (1 - d) / 2 + (r * pf p / 2) ^ 2) + s * s).
  { rewrite QQ. unfold gg. fold d. fold e. set (w := A p * d * e) in *.
    assert (pbeta p * (1 - d) <= 2) by nra. nra. }
  replace (Rabs (pf p) + (- (A p * d * e) * pbeta p * (1 - d) / 2 + (r * pf p / 2) ^ 2) / r / s + s / r)
    with (Rabs (pf p) + ((- (A p * d * e) * pbeta p * (1 - d) / 2 + (r * pf p / 2) ^ 2) + s * s) / (r * s)) by (field; lra).
  apply Rplus_le_le_0_compat; [exact F|]. apply Rmult_le_pos; [exact K|].
  left. apply Rinv_0_lt_compat. now apply Rmult_lt_0_compat.
Qed.

Lemma first_lower p : hstorm p -> - firstDerivative p * prMax p <= pvMax p.
Proof.
  intros H. rewrite first_formula by apply H. pose proof (ss_pos p (proj1 H)) as P.
  pose proof (ss_sq' p H) as Q. pose proof (vmax_pos p H) as V. destruct H as [(_ & _ & Hm) _].
  rewrite Rpow_mult_distr, (sq_abs (pf p)) in Q. rewrite (sq_abs (pf p)).
  pose proof (Rabs_pos (pf p)) as F. set (g := Rabs (pf p)) in *.
  set (y := prMax p * g / 2). assert (Y : 0 <= y) by (unfold y; apply Rmult_le_pos; [apply Rmult_le_pos; lra | lra]).
  assert (Q' : ss p * ss p = pvMax p * pvMax p + y * y) by (rewrite Q; unfold y; field).
  replace (- (prMax p * (g * g) / (4 * ss p) - g / 2) * prMax p) with (y * (1 - y / ss p)) by (unfold y; field; lra).
  assert (L : y <= ss p) by (apply Rnot_lt_le; intros L; nra).
  assert (T : y / ss p * ss p = y) by (field; lra).
  set (t := y / ss p) in *. assert (T0 : 0 <= t <= 1) by nra.
  assert (R2 : pvMax p * pvMax p = ss p * ss p * (1 - t * t)) by nra.
  assert (E : y * (1 - t) = ss p * (t * (1 - t))) by nra.
  rewrite E. apply Rnot_lt_le. intros N.
  assert (0 <= ss p * (t * (1 - t))) by (apply Rmult_le_pos; nra).
  assert (B : ss p * (t * (1 - t)) * (ss p * (t * (1 - t))) <= ss p * ss p * (1 - t * t)).
  { replace (ss p * (t * (1 - t)) * (ss p * (t * (1 - t)))) with (ss p * ss p * ((1 - t) * (t * t * (1 - t)))) by ring.
    apply Rmult_le_compat_l; [nra|]. replace (1 - t * t) with ((1 - t) * (1 + t)) by ring.
    apply Rmult_le_compat_l; [lra|]. nra. }
  nra.
Qed.

Lemma coreVort_form d2 d1 v m r : m <> 0 ->
  coreVort d2 d1 v m r * m =
  v * (1 + (1 - r / m) + 4 * (1 - r / m) ^ 2) + (- d1 * m) * (4 * (1 - r / m) ^ 2 + (1 - r / m) - 1) +
  d2 * m ^ 2 * ((1 - r / m) * (2 * (1 - r / m) - 1)).
Proof. intros H. unfold coreVort, cc, bb, aa. field. exact H. Qed.

Lemma coreVort_nonneg d2 d1 v m r : 0 < m -> 0 < v -> d1 <= 0 -> - d1 * m <= v -> - 2 * v <= d2 * m ^ 2 -> d2 <= 0 ->
  0 <= r <= m -> 0 <= coreVort d2 d1 v m r.
Proof.
  intros Hm Hv H1 H1' H2 H2' [Hr0 Hr].
  apply Rmult_le_reg_r with m; [exact Hm|]. rewrite Rmult_0_l, coreVort_form by lra.
  assert (T : 0 <= r / m <= 1).
  { split; [apply Rmult_le_pos; [exact Hr0 | left; now apply Rinv_0_lt_compat]|].
    apply Rmult_le_reg_r with m; [exact Hm|]. unfold Rdiv. rewrite Rmult_assoc, Rinv_l; lra. }
  set (u := 1 - r / m) in *. assert (U : 0 <= u <= 1) by (unfold u; lra).
  assert (D0 : d2 * m ^ 2 <= 0) by (pose proof (pow2_ge_0 m); nra).
  set (d := d2 * m ^ 2) in *. assert (K0 : 0 <= - d1 * m) by nra. set (k := - d1 * m) in *.
  clearbody d u k. clear T Hr0 Hr.
  assert (K1 : - k <= k * (4 * u ^ 2 + u - 1)).
  { assert (0 <= k * (4 * u ^ 2 + u)) by (apply Rmult_le_pos; nra). lra. }
  assert (K2 : - (2 * v) * (2 * u ^ 2) <= d * (u * (2 * u - 1))).
  { destruct (Rle_dec u (1 / 2)).
    - assert (0 <= - d * (u * (1 - 2 * u))) by (apply Rmult_le_pos; [lra | apply Rmult_le_pos; lra]).
      assert (0 <= 2 * v * (2 * u ^ 2)) by (apply Rmult_le_pos; [lra | pose proof (pow2_ge_0 u); lra]). lra.
    - assert (- (2 * v) * (u * (2 * u - 1)) <= d * (u * (2 * u - 1)))
        by (apply Rmult_le_compat_r; [apply Rmult_le_pos; lra | lra]).
      assert (0 <= 2 * v * u) by (apply Rmult_le_pos; lra). nra. }
  assert (0 <= v * u) by (apply Rmult_le_pos; lra).
  assert (v * (1 + u + 4 * u ^ 2) + k * (4 * u ^ 2 + u - 1) + d * (u * (2 * u - 1)) >=
          v * (1 + u + 4 * u ^ 2) - k - (2 * v) * (2 * u ^ 2)) by lra.
  nra.
Qed.

Lemma vort_nonneg p d2 r : hstorm p -> 1 / 2 <= pdP p -> pbeta p <= 2 -> 0 < r ->
  secondDerivative p = Some d2 -> 0 <= hollandVortAbs p d2 r.
Proof.
  intros H Hd Hb Hr S. destruct (proj2 (second_none p H Hd) d2 S) as [E0 N]. 
  unfold hollandVortAbs. destruct (rle r (prMax p)) eqn:E; [|apply outerVort_nonneg; [apply H | exact Hb | exact Hr]].
  apply rle_true in E. pose proof (second_lower p H) as L. pose proof (vmax_pos p H) as V.
  rewrite <- E0 in L. pose proof H as [(Hb0 & _ & Hm) _].
  apply coreVort_nonneg; [exact Hm | exact V | apply first_le, H | now apply first_lower | | lra | lra].
  assert (B : pbeta p ^ 2 <= 4) by nra. assert (pbeta p ^ 2 / 2 * pvMax p <= 2 * pvMax p) by nra. lra.
Qed.

Lemma compiled_vort p r : hstorm p -> 1 / 2 <= pdP p -> pbeta p <= 2 -> pf p <> 0 -> 0 < r ->
  fhollandVorticity p r = hollandVorticity p r.
Proof.
  intros H Hd Hb Hf Hr. unfold fhollandVorticity, hollandVorticity.
  destruct (secondDerivative p) as [d2|] eqn:E; [|reflexivity]. f_equal.
  apply fsign_sign; [exact Hf|]. now apply vort_nonneg.
Qed.
Lemma fsign_1 f : f <> 0 -> fsign 1 f = rsign f.
Proof. intros H. rewrite fsign_sign by lra. ring. Qed.
Lemma compiled_kepert p d2 V Z r lam vFm th : hstorm p -> 1 / 2 <= pdP p -> pbeta p <= 2 -> pf p <> 0 -> 0 < r ->
  secondDerivative p = Some d2 -> hollandVelocity p r = Some V -> hollandVorticity p r = Some Z ->
  fkepert p d2 r lam vFm th = kepert (pf p) (prMax p) (pvMax p) V Z r lam vFm th.
Proof.
  intros H Hd Hb Hf Hr S HV HZ. unfold fkepert, kepert.
  unfold hollandVelocity in HV. unfold hollandVorticity in HZ. rewrite S in HV, HZ.
  injection HV as <-. injection HZ as <-. pose proof H as [(Hb0 & _ & _) _].
  rewrite fsign_1 by exact Hf.
  rewrite !fsign_sign; [reflexivity | exact Hf | now apply vort_nonneg | exact Hf |].
  apply holland_cyclonic; try assumption. nra.
Qed.

(** * atan2 and polar components *)
Lemma hyp_pos x y : x <> 0 -> 0 < x ^ 2 + y ^ 2.
Proof. intros H. pose proof (pow2_ge_0 y). pose proof (Rsqr_pos_lt _ H) as Q. unfold Rsqr in Q. lra. Qed.
Lemma sqrt_1_sq x y : x <> 0 -> sqrt (1 + (y / x)²) = sqrt (x ^ 2 + y ^ 2) / Rabs x.
Proof.
  intros H. pose proof (hyp_pos x y H) as P. pose proof (Rabs_pos_lt _ H) as Ax.
  replace (Rabs x) with (sqrt (x ^ 2)) by (rewrite <- Rsqr_pow2; apply sqrt_Rsqr_abs).
  rewrite <- sqrt_div_alt by (pose proof (Rsqr_pos_lt _ H) as Y; unfold Rsqr in Y; lra). f_equal. unfold Rsqr. field. exact H.
Qed.
Lemma atan2_spec y x : sqrt (y ^ 2 + x ^ 2) * sin (atan2 y x) = y /\ sqrt (y ^ 2 + x ^ 2) * cos (atan2 y x) = x.
Proof.
  rewrite (Rplus_comm (y ^ 2)). unfold atan2.
  destruct (rlt 0 x) eqn:E1; [apply rlt_true in E1 | apply rlt_false in E1].
  - pose proof (hyp_pos x y ltac:(lra)) as P. pose proof (sqrt_lt_R0 _ P) as Q.
    rewrite sin_atan, cos_atan, sqrt_1_sq by lra. rewrite Rabs_right by lra. split; field; lra.
  - destruct (rlt x 0) eqn:E2; [apply rlt_true in E2 | apply rlt_false in E2].
    + pose proof (hyp_pos x y ltac:(lra)) as P. pose proof (sqrt_lt_R0 _ P) as Q.
      assert (K : sin (if rlt y 0 then atan (y / x) - PI else atan (y / x) + PI) = - sin (atan (y / x)) /\
                  cos (if rlt y 0 then atan (y / x) - PI else atan (y / x) + PI) = - cos (atan (y / x))).
      { destruct (rlt y 0); split; rewrite ?sin_minus, ?cos_minus, ?sin_plus, ?cos_plus, sin_PI, cos_PI; ring. }
      destruct K as [-> ->].
      rewrite sin_atan, cos_atan, sqrt_1_sq by lra. rewrite Rabs_left by lra. split; field; lra.
    + assert (x = 0) as -> by lra. replace (0 ^ 2 + y ^ 2) with (y * y) by ring. 
      destruct (rlt 0 y) eqn:E3; [apply rlt_true in E3 | apply rlt_false in E3].
      * rewrite sqrt_square, sin_PI2, cos_PI2 by lra. lra.
      * destruct (rlt y 0) eqn:E4; [apply rlt_true in E4 | apply rlt_false in E4].
        -- replace (y * y) with (- y * - y) by ring. rewrite sqrt_square by lra.
           rewrite sin_neg, cos_neg, sin_PI2, cos_PI2. lra.
        -- assert (y = 0) as -> by lra. rewrite Rmult_0_l, sqrt_0. lra.
Qed.
Lemma cartesian_eq uv lam : cartesian uv lam =
  (fst uv * cos lam - snd uv * sin lam, snd uv * cos lam + fst uv * sin lam).
Proof.
  unfold cartesian. cbv zeta. pose proof (atan2_spec (fst uv) (snd uv)) as [S C].
  set (h := sqrt _) in *. rewrite sin_minus, cos_minus. f_equal; nra.
Qed.
(** components away from the centre and anticlockwise at direction [lam] *)
Definition radial (w : R * R) (lam : R) : R := fst w * cos lam + snd w * sin lam.
Definition tangential (w : R * R) (lam : R) : R := snd w * cos lam - fst w * sin lam.
Lemma sc lam : cos lam * cos lam + sin lam * sin lam = 1.
Proof. pose proof (sin2_cos2 lam) as H. unfold Rsqr in H. lra. Qed.
Lemma cartesian_polar uv lam : radial (cartesian uv lam) lam = fst uv /\ tangential (cartesian uv lam) lam = snd uv.
Proof.
  rewrite cartesian_eq. unfold radial, tangential. cbn [fst snd]. pose proof (sc lam) as H.
  split; [transitivity (fst uv * (cos lam * cos lam + sin lam * sin lam)) |
          transitivity (snd uv * (cos lam * cos lam + sin lam * sin lam))]; try ring; rewrite H; ring.
Qed.
Lemma turned_polar a phi lam k : radial (a * sin (phi - lam) * k, a * cos (phi - lam) * k) lam = a * sin phi * k /\
  tangential (a * sin (phi - lam) * k, a * cos (phi - lam) * k) lam = a * cos phi * k.
Proof.
  unfold radial, tangential. cbn [fst snd]. rewrite sin_minus, cos_minus. pose proof (sc lam) as H.
  split; [transitivity (a * sin phi * k * (cos lam * cos lam + sin lam * sin lam)) |
          transitivity (a * cos phi * k * (cos lam * cos lam + sin lam * sin lam))]; try ring; rewrite H; ring.
Qed.

(** * Storms that do not move *)
Lemma deg_range a : 0 <= a <= 25 -> 0 <= sin (a * PI / 180) /\ 0 <= cos (a * PI / 180).
Proof.
  intros H. pose proof PI_RGT_0 as P.
  assert (B : 0 <= a * PI / 180 <= PI / 2) by nra.
  split; [apply sin_ge_0; lra | apply cos_ge_0; lra].
Qed.
Lemma turn_sign f w a : 0 <= w -> 0 <= a <= 25 ->
  rsign f * w * sin (- rsign f * a * PI / 180) <= 0 /\ 0 <= rsign f * (rsign f * w * cos (- rsign f * a * PI / 180)).
Proof.
  intros Hw Ha. pose proof (deg_range a Ha) as [S C].
  destruct (Rtotal_order f 0) as [H | [-> | H]].
  - rewrite rsign_neg by lra. replace (- -1 * a * PI / 180) with (a * PI / 180) by field. split; nra.
  - rewrite rsign_0. lra.
  - rewrite rsign_pos by lra. replace (- (1) * a * PI / 180) with (- (a * PI / 180)) by field.
    rewrite sin_neg, cos_neg. split; nra.
Qed.

Lemma hubbert_still f rMax w r lam th tm : 0 <= w ->
  radial (hubbert f rMax (rsign f * w) r lam 0 th tm) lam <= 0 /\
  0 <= rsign f * tangential (hubbert f rMax (rsign f * w) r lam 0 th tm) lam.
Proof.
  intros Hw. unfold hubbert. cbv zeta. rewrite !Rmult_0_l, Rplus_0_r.
  set (a := if rlt r rMax then 0 else 25).
  replace (if rlt r rMax then 0 else - rsign f * 25) with (- rsign f * a) by (unfold a; destruct (rlt r rMax); ring).
  destruct (turned_polar (7 / 10 * (rsign f * w)) (- rsign f * a * PI / 180) lam (1069 / 1000)) as [-> ->].
  pose proof (turn_sign f w a Hw ltac:(unfold a; destruct (rlt r rMax); lra)) as [S C].
  split; nra.
Qed.

Lemma swrf_range v : 66 / 100 <= swrf v <= 81 / 100.
Proof.
  unfold swrf. cbv zeta. set (a := Rabs v).
  destruct (rle 45 a) eqn:E1; [lra|]. apply rle_false in E1.
  destruct (rle (195 / 10) a) eqn:E2; [apply rle_true in E2; lra|]. apply rle_false in E2.
  destruct (rle 6 a) eqn:E3; [apply rle_true in E3; lra|]. lra.
Qed.
Lemma mcInflow_form f rMax r : 0 < rMax -> 0 < r -> exists a, 0 <= a <= 25 /\ mcInflow f rMax r = - rsign f * a * PI / 180.
Proof.
  intros Hm Hr. unfold mcInflow. eexists. split; [|reflexivity].
  assert (T : r / rMax * rMax = r) by (field; lra). pose proof (ratio_pos r rMax Hr Hm) as P.
  destruct (rlt r rMax) eqn:E.
  - apply rlt_true in E. replace (10 * r / rMax) with (10 * (r / rMax)) by (field; lra). nra.
  - apply rlt_false in E. destruct (rlt r (12 / 10 * rMax)) eqn:F; [|lra].
    apply rlt_true in F. nra.
Qed.
Lemma mc_still f rMax Vabs w r lam th tm : 0 <= w -> 0 < rMax -> 0 < r ->
  radial (mcconochie f rMax Vabs (rsign f * w) r lam 0 th tm) lam <= 0 /\
  0 <= rsign f * tangential (mcconochie f rMax Vabs (rsign f * w) r lam 0 th tm) lam.
Proof.
  intros Hw Hm Hr. unfold mcconochie. cbv zeta. rewrite Rmult_0_r, Rmult_0_l, Rplus_0_r.
  destruct (mcInflow_form f rMax r Hm Hr) as (a & Ha & ->).
  destruct (turned_polar (swrf (rsign f * w) * (rsign f * w)) (- rsign f * a * PI / 180) lam (1069 / 1000)) as [-> ->].
  pose proof (turn_sign f w a Hw Ha) as [S C]. pose proof (swrf_range (rsign f * w)) as K.
  split; nra.
Qed.

Lemma kvt_0 Vm rMax r : kvt Vm 0 rMax r = 0.
Proof. unfold kvt, umod. rewrite (proj2 (rlt_false 0 0)) by lra. cbn [andb]. destruct (rlt _ r); ring. Qed.
Lemma c0 x : (- x * 0) = 0. Proof. ring. Qed.
Lemma cdiv_0 a b : re a = 0 -> im a = 0 -> re (cdiv a b) = 0 /\ im (cdiv a b) = 0.
Proof. intros H K. unfold cdiv, C. cbn [re im]. rewrite H, K. unfold Rdiv. split; ring. Qed.
Lemma cscale_0 a : re (cscale 0 a) = 0 /\ im (cscale 0 a) = 0.
Proof. unfold cscale, C. cbn [re im]. split; ring. Qed.
Lemma cmul_0 a b : re a = 0 -> im a = 0 -> re (cmul a b) = 0 /\ im (cmul a b) = 0.
Proof. intros H K. unfold cmul, C. cbn [re im]. rewrite H, K. split; ring. Qed.

Lemma kepert_still_polar s f rMax Vm V Z r lam th : exists chi a, 0 <= chi /\ 0 <= a /\
  kepertPolar s f rMax Vm V Z r lam 0 th =
  (- (chi * V * a * s) / (2 * chi ^ 2 + 3 * chi + 2),
   V * (chi ^ 2 + 2 * chi + 2) / (2 * chi ^ 2 + 3 * chi + 2)).
Proof.
  unfold kepertPolar. cbv zeta. rewrite kvt_0, !c0, !Rmult_0_l.
  set (al := (2 * V / r + f) / (2 * 50)). set (be := (f + Z) / (2 * 50)). set (gam := V / (2 * 50 * r)).
  set (albe := sqrt (al / be)). set (chi := Rabs (2 / 1000 / 50 * V / sqrt (sqrt (al * be)))).
  set (eta := Rabs (2 / 1000 / 50 * V / sqrt (sqrt (al * be) + Rabs gam))).
  set (psi := Rabs (2 / 1000 / 50 * V / sqrt (Rabs (sqrt (al * be) - Rabs gam)))).
  exists chi, albe. assert (HC : 0 <= chi) by apply Rabs_pos.
  split; [exact HC | split; [apply sqrt_pos|]].
  set (Am := if rlt (sqrt (al * be)) (Rabs gam) then _ else cdiv (cscale 0 (cadd (C (1 + 2 * albe) 0) _)) _).
  set (Ap := if rlt (sqrt (al * be)) (Rabs gam) then cdiv (cscale 0 (cadd (C (1 - 2 * albe) 0) (cscale ((1 - albe) * psi) (C 1 (-1))))) _ else _).
  assert (A1 : re Am = 0 /\ im Am = 0) by (unfold Am; destruct (rlt (sqrt (al * be)) (Rabs gam)); apply cdiv_0; apply cscale_0).
  assert (A2 : re Ap = 0 /\ im Ap = 0) by (unfold Ap; destruct (rlt (sqrt (al * be)) (Rabs gam)); apply cdiv_0; apply cscale_0).
  destruct A1 as [A1 A1']. destruct A2 as [A2 A2'].
  pose proof (cmul_0 Am (cexpi (- (lam - th) * s)) A1 A1') as [-> ->].
  pose proof (cmul_0 Ap (cexpi ((lam - th) * s)) A2 A2') as [-> ->].
  unfold cscale, C. cbn [re im].
  assert (D : 2 * chi ^ 2 + 3 * chi + 2 <> 0) by (pose proof (pow2_ge_0 chi); lra).
  f_equal; field; exact D.
Qed.
Lemma kepert_still f rMax Vm w Z r lam th : 0 <= w ->
  radial (kepert f rMax Vm (rsign f * w) Z r lam 0 th) lam <= 0 /\
  (exists k, 1 / 2 <= k <= 1 /\ tangential (kepert f rMax Vm (rsign f * w) Z r lam 0 th) lam = k * (rsign f * w)).
Proof.
  intros Hw. unfold kepert. destruct (cartesian_polar (kepertPolar (rsign f) f rMax Vm (rsign f * w) Z r lam 0 th) lam) as [-> ->].
  destruct (kepert_still_polar (rsign f) f rMax Vm (rsign f * w) Z r lam th) as (chi & a & Hc & Ha & ->). cbn [fst snd].
  pose proof (pow2_ge_0 chi) as Q. assert (D : 0 < 2 * chi ^ 2 + 3 * chi + 2) by lra.
  split.
  - assert (SS : 0 <= rsign f * rsign f) by apply Rle_0_sqr.
    replace (- (chi * (rsign f * w) * a * rsign f) / (2 * chi ^ 2 + 3 * chi + 2))
      with (- (chi * w * a * (rsign f * rsign f) / (2 * chi ^ 2 + 3 * chi + 2))) by (field; lra).
    assert (0 <= chi * w * a * (rsign f * rsign f) / (2 * chi ^ 2 + 3 * chi + 2)); [|lra].
    apply Rmult_le_pos; [apply Rmult_le_pos; [repeat apply Rmult_le_pos; assumption | exact SS] | left; now apply Rinv_0_lt_compat].
  - exists ((chi ^ 2 + 2 * chi + 2) / (2 * chi ^ 2 + 3 * chi + 2)). split.
    + split; apply Rmult_le_reg_r with (2 * chi ^ 2 + 3 * chi + 2); try exact D;
        unfold Rdiv; rewrite ?Rmult_assoc, ?Rinv_l by lra; lra.
    + field. lra.
Qed.

(** * The reflected storm *)
Definition flipY (w : R * R) : R * R := (fst w, - snd w).
Lemma swrf_even v : swrf (- v) = swrf v.
Proof. unfold swrf. rewrite Rabs_Ropp. reflexivity. Qed.
Lemma mc_mirror f rMax Vabs V r lam vFm th tm :
  mcconochie (- f) rMax Vabs (- V) r (- lam) vFm (- th) (- tm) = flipY (mcconochie f rMax Vabs V r lam vFm th tm).
Proof.
  unfold mcconochie, flipY. cbv zeta. cbn [fst snd].
  replace (- th + - tm * PI / 180 - - lam) with (- (th + tm * PI / 180 - lam)) by field. rewrite cos_neg.
  set (c := cos _).
  replace (- V + 1 / 2 * (1 + c) * vFm * (- V / Vabs)) with (- (V + 1 / 2 * (1 + c) * vFm * (V / Vabs))) by (unfold Rdiv; ring).
  rewrite swrf_even.
  assert (M : mcInflow (- f) rMax r = - mcInflow f rMax r) by (unfold mcInflow; rewrite rsign_opp; field).
  rewrite M. replace (- mcInflow f rMax r - - lam) with (- (mcInflow f rMax r - lam)) by ring.
  rewrite sin_neg, cos_neg. f_equal; ring.
Qed.
Lemma neg_div a b : - a / - b = a / b.
Proof.
  destruct (Req_dec b 0) as [-> | N]; [|field; exact N].
  rewrite Ropp_0. unfold Rdiv. rewrite Rinv_0. ring.
Qed.
Lemma kepert_mirror_polar s f rMax Vm V Z r lam vFm th :
  kepertPolar (- s) (- f) rMax Vm (- V) (- Z) r (- lam) vFm (- th) =
  (fst (kepertPolar s f rMax Vm V Z r lam vFm th), - snd (kepertPolar s f rMax Vm V Z r lam vFm th)).
Proof.
  unfold kepertPolar. cbv zeta. cbn [fst snd].
  replace ((2 * - V / r + - f) / (2 * 50)) with (- ((2 * V / r + f) / (2 * 50))) by (unfold Rdiv; ring).
  replace ((- f + - Z) / (2 * 50)) with (- ((f + Z) / (2 * 50))) by (unfold Rdiv; ring).
  replace (- V / (2 * 50 * r)) with (- (V / (2 * 50 * r))) by (unfold Rdiv; ring).
  set (al := (2 * V / r + f) / (2 * 50)). set (be := (f + Z) / (2 * 50)). set (gam := V / (2 * 50 * r)).
  rewrite neg_div, Rabs_Ropp. replace (- al * - be) with (al * be) by ring.
  assert (X : forall k, Rabs (2 / 1000 / 50 * - V / k) = Rabs (2 / 1000 / 50 * V / k)).
  { intros k. replace (2 / 1000 / 50 * - V / k) with (- (2 / 1000 / 50 * V / k)) by (unfold Rdiv; ring). apply Rabs_Ropp. }
  rewrite !X.
  replace (- (- lam - - th) * - s) with (- (lam - th) * s) by ring.
  replace ((- lam - - th) * - s) with ((lam - th) * s) by ring.
  replace (- lam - - th) with (- (lam - th)) by ring. rewrite cos_neg, sin_neg.
  set (albe := sqrt (al / be)). set (chi := Rabs (2 / 1000 / 50 * V / sqrt (sqrt (al * be)))).
  set (eta := Rabs (2 / 1000 / 50 * V / sqrt (sqrt (al * be) + Rabs gam))).
  set (psi := Rabs (2 / 1000 / 50 * V / sqrt (Rabs (sqrt (al * be) - Rabs gam)))).
  set (m := cmul _ (cexpi (- (lam - th) * s))). set (q := cmul _ (cexpi ((lam - th) * s))).
  unfold cscale, C. cbn [re im]. f_equal; ring.
Qed.
Lemma kepert_mirror f rMax Vm V Z r lam vFm th :
  kepert (- f) rMax Vm (- V) (- Z) r (- lam) vFm (- th) = flipY (kepert f rMax Vm V Z r lam vFm th).
Proof.
  unfold kepert, flipY. rewrite rsign_opp, kepert_mirror_polar, !cartesian_eq. cbn [fst snd].
  rewrite cos_neg, sin_neg. f_equal; ring.
Qed.
Lemma hubbert_mirror_fails : hubbert (- (1)) 2 (- (10)) 1 (- 0) 5 (- 0) (- 0) <> flipY (hubbert 1 2 10 1 0 5 0 0).
Proof.
  unfold hubbert, flipY. cbv zeta. cbn [fst snd].
  rewrite (proj2 (rlt_true 1 2)) by lra.
  replace (- 0 + - 0 * PI / 180 - - 0 + PI) with PI by field. replace (0 + 0 * PI / 180 - 0 + PI) with PI by field.
  replace (0 * PI / 180 - - 0) with 0 by field. replace (0 * PI / 180 - 0) with 0 by field.
  rewrite sin_0, cos_0, cos_PI. intros H. injection H as _ H. lra.
Qed.

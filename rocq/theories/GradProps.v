(** The gradient wind and the pressure field of one storm (C174, C175), and exact statements about vorticity, shape
    parameters and the relations of wind and pressure. *)
From Coq Require Import Reals Lra Psatz Bool.
From Verif Require Import CircleModel CircleProofs FitRProofs DerivTac WindModel WindProofs WindProofs2 WindProofs3 WindProofs4.
Local Open Scope R_scope.

(** slope of one exponential part of the pressure *)
Lemma part_deriv (k m b r : R) : 0 < m -> 0 < r ->
  derivable_pt_lim (fun y => k * exp (- Rpower (m / y) b)) r (k * exp (- Rpower (m / r) b) * (b * Rpower (m / r) b / r)).
Proof.
  intros Hm Hr. pose proof (ratio_pos m r Hm Hr) as P.
  assert (DP : derivable_pt_lim (fun y => Rpower (m / y) b) r (- b * Rpower (m / r) b / r)).
  { dsolve; [exact P | lra |]. set (x := Rpower (m / r) b). field. lra. }
  apply D_eq with (0 * exp (- Rpower (m / r) b) + k * (exp (- Rpower (m / r) b) * - (- b * Rpower (m / r) b / r))).
  - apply (D_mult (fun _ => k) (fun y => exp (- Rpower (m / y) b))); [apply D_const|].
    apply (D_exp (fun y => - Rpower (m / y) b)). apply (D_opp (fun y => Rpower (m / y) b)). exact DP.
  - field. lra.
Qed.

(** ** C174: outside the core the wind balances the slope of the pressure and the Coriolis force *)
Theorem c174_balance : forall p pc d2 r, storm p -> prMax p < r ->
  exists slope, derivable_pt_lim (prsHolland pc (pdP p) (prMax p) (pbeta p)) r slope /\
    let V := hollandAbs p d2 r in 0 <= V /\ V ^ 2 / r + Rabs (pf p) * V = slope / (115 / 100).
Proof.
  intros p pc d2 r S L. pose proof S as (Hb & Hd & Hm). assert (Hr : 0 < r) by lra.
  pose proof (ratio_pos _ _ Hm Hr) as P.
  eexists. split.
  - unfold prsHolland. apply (D_plus (fun _ => pc) (fun y => pdP p * exp (- Rpower (prMax p / y) (pbeta p)))); [apply D_const|].
    apply part_deriv; assumption.
  - cbv zeta. unfold hollandAbs. rewrite (proj2 (rle_false r (prMax p))) by lra. unfold outer, delta, rho.
    set (x := Rpower (prMax p / r) (pbeta p)). assert (X : 0 < x) by apply exp_pos.
    set (e := exp (- x)). assert (E : 0 < e) by apply exp_pos. clearbody e x.
    set (g := pdP p * pbeta p / (115 / 100) * x * e).
    assert (G : 0 <= g). { unfold g. repeat apply Rmult_le_pos; try lra. }
    set (h := r * pf p / 2). set (q := sqrt (g + h ^ 2)).
    assert (H2 : 0 <= h ^ 2) by apply pow2_ge_0.
    assert (Q : q * q = g + h ^ 2) by (apply sqrt_sqrt; lra).
    assert (Q0 : 0 <= q) by apply sqrt_pos.
    assert (HA : r * Rabs (pf p) / 2 = Rabs h).
    { unfold h, Rdiv. rewrite !Rabs_mult, (Rabs_right r), (Rabs_right (/ 2)) by lra. reflexivity. }
    rewrite HA. assert (AH : Rabs h * Rabs h = h ^ 2) by (pose proof (sq_abs h); unfold Rsqr in *; lra || (rewrite <- Rabs_mult; rewrite Rabs_right; [ring|nra])).
    pose proof (Rabs_pos h) as PH. split.
    + assert (Rabs h <= q); [|lra]. apply Rnot_lt_le. intros C. nra.
    + assert (FA : Rabs (pf p) = 2 * Rabs h / r) by (rewrite <- HA; field; lra). rewrite FA.
      replace ((q - Rabs h) ^ 2 / r + 2 * Rabs h / r * (q - Rabs h)) with ((q * q - Rabs h * Rabs h) / r) by (field; lra).
      rewrite Q, AH. unfold g. field. lra.
Qed.
Example c174_balance_ex : exists p, storm p /\ prMax p < 50000.
Proof. exists {| pf := 1; pdP := 5000; prMax := 30000; pbeta := 3 / 2; pvMax := 40 |}. unfold storm. cbn. lra. Qed.

(** The double profile in the northern hemisphere balances the double pressure field. *)
Theorem c174_double : forall p pc b1 b2 m2 r, 0 < pdP p -> 0 < prMax p -> 0 < b1 -> 0 < b2 -> 0 < m2 -> 0 < pf p -> 0 < r ->
  exists slope, derivable_pt_lim (prsDouble pc (pdP p) (prMax p) m2 (Some b1) (Some b2)) r slope /\
    let V := doubleOuter p b1 b2 m2 r in V ^ 2 / r + pf p * V = slope / (115 / 100).
Proof.
  intros p pc b1 b2 m2 r Hd Hm H1 H2 Hm2 Hf Hr. pose proof (dp2_range (pdP p) Hd) as DR.
  set (d2 := dp2of (pdP p)) in *. set (d1 := pdP p - d2).
  eexists. split.
  - unfold prsDouble. cbn [orElse]. fold d2. cbv zeta. fold d1.
    apply (D_plus (fun y => pc + d1 * exp (- Rpower (prMax p / y) b1)) (fun y => d2 * exp (- Rpower (m2 / y) b2))).
    + apply (D_plus (fun _ => pc) (fun y => d1 * exp (- Rpower (prMax p / y) b1))); [apply D_const|apply part_deriv; assumption].
    + apply part_deriv; assumption.
  - cbv zeta. unfold doubleOuter, rho. fold d2. cbv zeta. fold d1. rewrite rsign_pos by exact Hf. rewrite (Rabs_right (pf p)) by lra.
    set (x := Rpower (prMax p / r) b1). assert (X : 0 < x) by apply exp_pos.
    set (y := Rpower (m2 / r) b2). assert (Y : 0 < y) by apply exp_pos.
    set (e := exp (- x)). assert (E : 0 < e) by apply exp_pos. set (e2 := exp (- y)). assert (E2 : 0 < e2) by apply exp_pos.
    clearbody e x e2 y.
    set (g := b1 * d1 / (115 / 100) * x * e + b2 * d2 / (115 / 100) * y * e2).
    assert (G : 0 <= g). { unfold g. apply Rplus_le_le_0_compat; repeat apply Rmult_le_pos; unfold d1 in *; lra. }
    set (h := r * pf p / 2). set (q := sqrt (g + h ^ 2)).
    assert (H2' : 0 <= h ^ 2) by apply pow2_ge_0.
    assert (Q : q * q = g + h ^ 2) by (apply sqrt_sqrt; lra).
    assert (FA : pf p = 2 * h / r) by (unfold h; field; lra). rewrite FA.
    replace ((1 * q - h) ^ 2 / r + 2 * h / r * (1 * q - h)) with ((q * q - h ^ 2) / r) by (field; lra).
    rewrite Q. unfold g. field. lra.
Qed.
Example c174_double_ex : exists p, 0 < pdP p /\ 0 < prMax p /\ 0 < pf p.
Proof. exists {| pf := 1; pdP := 5000; prMax := 30000; pbeta := 3 / 2; pvMax := 40 |}. cbn. lra. Qed.

(** The largest wind of the Holland family is the one that the pressure implies without rotation, as vmax gives it. *)
Theorem c174_speed : forall lat eP cP rMax beta, toPa cP <= toPa eP ->
  vmax cP eP Holland beta (115 / 100) = nsqrt (beta * (toPa eP - toPa cP) / (exp 1 * (115 / 100))) /\
  (0 <= beta -> vmax cP eP Holland beta (115 / 100) = WOk (pvMax (mkHolland lat eP cP rMax beta))) /\
  vmax cP eP Willoughby beta (115 / 100) = WOk (willoughbySpeed (toPa eP - toPa cP)).
Proof.
  intros lat eP cP rMax beta L. unfold vmax. rewrite (proj2 (rlt_false (toPa eP) (toPa cP))) by lra. cbv zeta. split; [reflexivity|]. split.
  - intros B. unfold nsqrt, mkHolland, hollandSpeed, rho. cbn [pvMax]. rewrite (proj2 (rlt_false _ 0)); [reflexivity|].
    apply Rmult_le_pos; [apply Rmult_le_pos; lra|]. apply Rlt_le, Rinv_0_lt_compat. apply Rmult_lt_0_compat; [apply exp_pos|lra].
  - unfold nsqrt, willoughbySpeed. rewrite (proj2 (rlt_false _ 0)) by lra. reflexivity.
Qed.
Example c174_speed_ex : toPa 950 <= toPa 1010.
Proof. unfold toPa. rewrite !(proj2 (rlt_true _ _)) by lra. lra. Qed.

(** The shape parameter falls with latitude and size for Powell, where it is between 0.8 and 1.8811 for every storm and the upper
    bound of 2.2 never matters; for Willoughby it rises with the intensity of the storm and falls with its size. *)
Theorem c174_powell : forall lat lat' r r', Rabs lat <= Rabs lat' -> 0 <= r <= r' ->
  windPowellBeta lat' r' <= windPowellBeta lat r /\ 8 / 10 <= windPowellBeta lat r <= 1881093 / 1000000 /\
  (windPowellBeta lat r = 8 / 10 \/
   windPowellBeta lat r = 1881093 / 1000000 - 10917 / 1000000 * Rabs lat - 5567 / 1000000 * (r * 539957 / 1000000000)).
Proof.
  intros lat lat' r r' L [R0 R1]. pose proof (Rabs_pos lat) as P. unfold windPowellBeta, clamp.
  set (a := Rabs lat) in *. set (a' := Rabs lat') in *. clearbody a a'.
  set (x := 1881093 / 1000000 - 10917 / 1000000 * a - 5567 / 1000000 * (r * (539957 / 1000000000))).
  set (x' := 1881093 / 1000000 - 10917 / 1000000 * a' - 5567 / 1000000 * (r' * (539957 / 1000000000))).
  assert (X : x <= 1881093 / 1000000) by (unfold x; lra). assert (X' : x' <= x) by (unfold x, x'; lra).
  assert (T : forall u, u <= 1881093 / 1000000 -> (if rlt u (8 / 10) then 8 / 10 else if rlt (22 / 10) u then 22 / 10 else u) = Rmax (8 / 10) u).
  { intros u U. rewrite (proj2 (rlt_false (22 / 10) u)) by lra. destruct (rlt u (8 / 10)) eqn:E.
    - apply rlt_true in E. rewrite Rmax_left; lra.
    - apply rlt_false in E. rewrite Rmax_right; lra. }
  rewrite !T by lra. split; [apply Rle_max_compat_l; exact X'|]. split; [split; [apply Rmax_l|apply Rmax_lub; lra]|].
  destruct (Rle_dec x (8 / 10)) as [C|C]; [left; apply Rmax_left; lra|right; rewrite Rmax_right by lra; unfold x; lra].
Qed.
Example c174_powell_ex : Rabs (-10) <= Rabs (-20) /\ 0 <= 20000 <= 30000.
Proof. rewrite !Rabs_left by lra. lra. Qed.
Theorem c174_willoughby : forall lat eP cP rMax v, vmax cP eP Willoughby (13 / 10) (115 / 100) = WOk v -> 0 < rMax ->
  pbeta (mkWilloughby lat eP cP rMax) = 10036 / 10000 + 173 / 10000 * v - 313 / 10000 * ln (rMax / 1000) + 87 / 10000 * Rabs lat.
Proof.
  intros lat eP cP rMax v H R. unfold vmax in H. destruct (rlt (toPa eP) (toPa cP)) eqn:E; [discriminate|].
  apply rlt_false in E. unfold nsqrt in H. rewrite (proj2 (rlt_false _ 0)) in H by lra. cbn [scaleW] in H. injection H as <-.
  reflexivity.
Qed.
Example c174_willoughby_ex : exists v, vmax 950 1010 Willoughby (13 / 10) (115 / 100) = WOk v.
Proof. eexists. apply (proj2 (proj2 (c174_speed 0 1010 950 1 (13 / 10) c174_speed_ex))). Qed.

(** ** C175: where the balance fails *)
(** At the radius of maximum winds the wind is too strong for the pressure of a rotating earth. *)
Theorem c175_core_refuted : forall p pc d2, hstorm p -> pf p <> 0 ->
  exists slope, derivable_pt_lim (prsHolland pc (pdP p) (prMax p) (pbeta p)) (prMax p) slope /\
    let V := hollandAbs p d2 (prMax p) in V ^ 2 / prMax p + Rabs (pf p) * V = slope / (115 / 100) + Rabs (pf p) * pvMax p /\
    0 < Rabs (pf p) * pvMax p.
Proof.
  intros p pc d2 H Hf. pose proof H as [S HV]. pose proof S as (Hb & Hd & Hm).
  pose proof (vmax_sq p H) as VS. pose proof (vmax_pos p H) as VP. eexists. split.
  - unfold prsHolland. apply (D_plus (fun _ => pc) (fun y => pdP p * exp (- Rpower (prMax p / y) (pbeta p)))); [apply D_const|].
    apply part_deriv; assumption.
  - cbv zeta. unfold hollandAbs. rewrite (proj2 (rle_true (prMax p) (prMax p))) by lra.
    assert (C : core d2 (firstDerivative p) (pvMax p) (prMax p) (prMax p) = pvMax p) by (unfold core, cc, bb, aa; field; lra).
    rewrite C. split.
    + replace (prMax p / prMax p) with 1 by (field; lra). unfold Rpower. rewrite ln_1, Rmult_0_r, exp_0, exp_Ropp.
      unfold A, rho in VS. pose proof (exp_pos 1) as E1.
      replace (pvMax p ^ 2) with (pdP p * pbeta p / (115 / 100) / exp 1) by (rewrite <- VS; ring).
      field. split; lra.
    + apply Rmult_lt_0_compat; [now apply Rabs_pos_lt|exact VP].
Qed.
(** In the southern hemisphere the double profile adds the rotation instead of subtracting it: its strength is twice r |f| / 2
    above that of the mirrored storm, which is in balance. *)
Theorem c175_double_refuted : forall p pc b1 b2 m2 r, 0 < pdP p -> 0 < prMax p -> 0 < b1 -> 0 < b2 -> 0 < m2 -> pf p < 0 -> 0 < r ->
  exists slope, derivable_pt_lim (prsDouble pc (pdP p) (prMax p) m2 (Some b1) (Some b2)) r slope /\
    let V := Rabs (doubleOuter p b1 b2 m2 r) in slope / (115 / 100) < V ^ 2 / r + Rabs (pf p) * V.
Proof.
  intros p pc b1 b2 m2 r Hd Hm H1 H2 Hm2 Hf Hr. pose proof (dp2_range (pdP p) Hd) as DR.
  set (d2 := dp2of (pdP p)) in *. set (d1 := pdP p - d2).
  eexists. split.
  - unfold prsDouble. cbn [orElse]. fold d2. cbv zeta. fold d1.
    apply (D_plus (fun y => pc + d1 * exp (- Rpower (prMax p / y) b1)) (fun y => d2 * exp (- Rpower (m2 / y) b2))).
    + apply (D_plus (fun _ => pc) (fun y => d1 * exp (- Rpower (prMax p / y) b1))); [apply D_const|apply part_deriv; assumption].
    + apply part_deriv; assumption.
  - cbv zeta. unfold doubleOuter, rho. fold d2. cbv zeta. fold d1. rewrite rsign_neg by exact Hf. rewrite (Rabs_left (pf p)) by lra.
    set (x := Rpower (prMax p / r) b1). assert (X : 0 < x) by apply exp_pos.
    set (y := Rpower (m2 / r) b2). assert (Y : 0 < y) by apply exp_pos.
    set (e := exp (- x)). assert (E : 0 < e) by apply exp_pos. set (e2 := exp (- y)). assert (E2 : 0 < e2) by apply exp_pos.
    clearbody e x e2 y.
    set (g := b1 * d1 / (115 / 100) * x * e + b2 * d2 / (115 / 100) * y * e2).
    assert (G : 0 <= g). { unfold g. apply Rplus_le_le_0_compat; repeat apply Rmult_le_pos; unfold d1 in *; lra. }
    set (h := r * - pf p / 2). assert (HP : 0 < h) by (unfold h; apply Rmult_lt_0_compat; [apply Rmult_lt_0_compat; lra|lra]).
    assert (HE : (r * pf p / 2) ^ 2 = h ^ 2) by (unfold h; field). rewrite HE.
    set (q := sqrt (g + h ^ 2)). assert (H2' : 0 <= h ^ 2) by apply pow2_ge_0.
    assert (Q : q * q = g + h ^ 2) by (apply sqrt_sqrt; lra). assert (Q0 : 0 <= q) by apply sqrt_pos.
    rewrite (Rabs_left1 (-1 * q - h)) by lra.
    assert (FA : - pf p = 2 * h / r) by (unfold h; field; lra). rewrite FA.
    replace ((- (-1 * q - h)) ^ 2 / r + 2 * h / r * (- (-1 * q - h))) with ((q * q + 4 * q * h + 3 * h ^ 2) / r) by (field; lra).
    replace ((0 + d1 * e * (b1 * x / r) + d2 * e2 * (b2 * y / r)) / (115 / 100)) with (g / r) by (unfold g; field; lra).
    apply Rmult_lt_compat_r; [now apply Rinv_0_lt_compat|]. rewrite Q.
    assert (0 <= 4 * q * h) by (apply Rmult_le_pos; lra). assert (0 < h ^ 2) by (apply pow_lt; exact HP). lra.
Qed.

(** * C94: the size of the errors of the vorticity *)
(** The Jelesnianski vorticity of a distance is the one of a distance a thousand times as large. *)
Theorem c94_jelesnianski_scale_refuted : forall p r, 0 < prMax p -> 0 < r -> exists V',
  derivable_pt_lim (jelVelocity p) (1000 * r) V' /\ jelVorticity p r = V' + jelVelocity p (1000 * r) / (1000 * r).
Proof.
  intros p r Hm Hr. eexists. split; [apply jel_deriv; lra|]. unfold jelVorticity, jelVelocity. cbv zeta.
  assert (0 < prMax p ^ 2) by (apply pow_lt; exact Hm). assert (0 <= (1000 * r) ^ 2) by apply pow2_ge_0.
  replace (r * 1000) with (1000 * r) by ring. set (m := prMax p) in *. set (R := 1000 * r) in *. assert (0 < R) by (unfold R; lra). clearbody R m.
  field. split; lra.
Qed.
(** The Rankine vorticity is wrong by (r - 1) vMax / rMax inside, and outside by the root of rMax that is missing. *)
Theorem c94_rankine_error_refuted : forall p r, 0 < prMax p -> 0 < r ->
  (r < prMax p -> exists V', derivable_pt_lim (rankVelocity p) r V' /\
     rankVorticity p r = V' + rankVelocity p r / r + rsign (pf p) * pvMax p * (r - 1) / prMax p) /\
  (prMax p < r -> exists V', derivable_pt_lim (rankVelocity p) r V' /\
     rankVorticity p r = V' + rankVelocity p r / r - 1 / 2 * pvMax p * (prMax p - rsign (pf p) * sqrt (prMax p)) / (r * sqrt r)).
Proof.
  intros p r Hm Hr. split; intros L.
  - exists (rsign (pf p) * (pvMax p / prMax p)). split.
    + apply D_ext with (f := fun y => rsign (pf p) * (pvMax p * (y / prMax p))).
      * exists (prMax p - r). split; [lra|]. intros y Hy. apply Rabs_def2 in Hy. unfold rankVelocity.
        rewrite (proj2 (rle_true y (prMax p))) by lra. reflexivity.
      * set (s := rsign (pf p)). set (v := pvMax p). set (m := prMax p) in *. dsolve; [lra|]. field. lra.
    + unfold rankVorticity, rankVelocity. rewrite (proj2 (rle_true r (prMax p))) by lra. field. split; lra.
  - exists (rsign (pf p) * (pvMax p * (- (1 / 2) * Rpower (prMax p / r) (1 / 2) / r))). split.
    + apply D_ext with (f := fun y => rsign (pf p) * (pvMax p * Rpower (prMax p / y) (1 / 2))).
      * exists (r - prMax p). split; [lra|]. intros y Hy. apply Rabs_def2 in Hy. unfold rankVelocity.
        rewrite (proj2 (rle_false y (prMax p))) by lra. reflexivity.
      * pose proof (pow_deriv p r Hm Hr) as D. set (s := rsign (pf p)) in *. set (v := pvMax p) in *.
        apply D_eq with (0 * (v * Rpower (prMax p / r) (1 / 2)) + s * (0 * Rpower (prMax p / r) (1 / 2) + v * (- (1 / 2) * Rpower (prMax p / r) (1 / 2) / r))); [|ring].
        apply (D_mult (fun _ => s) (fun y => v * Rpower (prMax p / y) (1 / 2))); [apply D_const|].
        apply (D_mult (fun _ => v) (fun y => Rpower (prMax p / y) (1 / 2))); [apply D_const|exact D].
    + unfold rankVorticity, rankVelocity. rewrite (proj2 (rle_false r (prMax p))) by lra.
      assert (RS : forall x, 0 < x -> Rpower x (1 / 2) = sqrt x) by (intros x Hx; replace (1 / 2) with (/ 2) by lra; now apply Rpower_sqrt).
      pose proof (ratio_pos _ _ Hm Hr) as P. rewrite Rpower_plus, Rpower_1, !RS by lra. rewrite sqrt_div_alt by lra.
      pose proof (sqrt_lt_R0 r Hr) as SR. set (q := sqrt r) in *. set (w := sqrt (prMax p)).
      field. split; lra.
Qed.

Print Assumptions c174_balance.
Print Assumptions c174_double.
Print Assumptions c174_speed.
Print Assumptions c174_powell.
Print Assumptions c174_willoughby.
Print Assumptions c175_core_refuted.
Print Assumptions c175_double_refuted.
Print Assumptions c94_jelesnianski_scale_refuted.
Print Assumptions c94_rankine_error_refuted.

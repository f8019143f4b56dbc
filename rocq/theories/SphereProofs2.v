(** Proofs about SphereModel.v: moving, the compiled grid, historical steps. *)
From Coq Require Import Reals Lra Psatz List.
From Verif Require Import CircleModel CircleProofs WindModel WindProofs WindProofs5 SphereModel SphereProofs.
Open Scope R_scope.

Lemma rad_deg x : radians (degrees x) = x.
Proof. unfold radians, degrees. pose proof PI_RGT_0. field. lra. Qed.
Lemma deg_rad x : degrees (radians x) = x.
Proof. unfold radians, degrees. pose proof PI_RGT_0. field. lra. Qed.
Lemma rad_quarter x : - 90 <= x <= 90 -> 0 <= cos (radians x).
Proof. intros H. unfold radians. pose proof PI_RGT_0. apply cos_ge_0; nra. Qed.
Lemma rad_quarter' x : - 90 < x < 90 -> 0 < cos (radians x).
Proof. intros H. unfold radians. pose proof PI_RGT_0. apply cos_gt_0; nra. Qed.

Section Move.
  Variables b t f : R.   (* bearing, angular distance, latitude, in radians *)
  Let S := sin f * cos t + cos f * sin t * cos b.
  Lemma move_compl : 1 - S ^ 2 = (cos f * cos t - sin f * sin t * cos b) ^ 2 + (sin t * sin b) ^ 2.
  Proof.
    unfold S. pose proof (sc2 f) as F. pose proof (sc2 t) as T. pose proof (sc2 b) as B.
    assert (E : (sin f * cos t + cos f * sin t * cos b) ^ 2 + (cos f * cos t - sin f * sin t * cos b) ^ 2 + (sin t * sin b) ^ 2
      = (sin f ^ 2 + cos f ^ 2) * (cos t ^ 2 + sin t ^ 2 * cos b ^ 2) + sin t ^ 2 * sin b ^ 2) by ring.
    rewrite F in E.
    assert (E2 : 1 * (cos t ^ 2 + sin t ^ 2 * cos b ^ 2) + sin t ^ 2 * sin b ^ 2 = cos t ^ 2 + sin t ^ 2 * (sin b ^ 2 + cos b ^ 2)) by ring.
    rewrite E2, B in E. lra.
  Qed.
  Lemma move_range : -1 <= S <= 1.
  Proof.
    apply sq_le_1. pose proof move_compl. pose proof (pow2_ge_0 (cos f * cos t - sin f * sin t * cos b)).
    pose proof (pow2_ge_0 (sin t * sin b)). lra.
  Qed.
  Let aa := sin b * sin t * cos f.
  Let bb := cos t - sin f * S.
  Lemma move_bb : bb = cos f * (cos f * cos t - sin f * sin t * cos b).
  Proof.
    unfold bb, S. pose proof (sc2 f) as F.
    transitivity ((sin f ^ 2 + cos f ^ 2) * cos t - sin f * (sin f * cos t + cos f * sin t * cos b)); [rewrite F; ring | ring].
  Qed.
  Lemma move_rho : 0 <= cos f -> sqrt (aa ^ 2 + bb ^ 2) = cos f * cos (asin S).
  Proof.
    intros H. rewrite cos_asin by apply move_range.
    replace (1 - S²) with (1 - S ^ 2) by (unfold Rsqr; ring). pose proof move_compl as M.
    assert (P : 0 <= 1 - S ^ 2) by (rewrite M; pose proof (pow2_ge_0 (cos f * cos t - sin f * sin t * cos b)); pose proof (pow2_ge_0 (sin t * sin b)); lra).
    rewrite <- (sqrt_pow2 (cos f) H) at 1. rewrite <- sqrt_mult by (try apply pow2_ge_0; exact P).
    f_equal. rewrite M, move_bb. unfold aa. ring.
  Qed.
  Lemma move_dlon : 0 <= cos f ->
    cos f * cos (asin S) * sin (atan2 aa bb) = aa /\ cos f * cos (asin S) * cos (atan2 aa bb) = bb.
  Proof. intros H. rewrite <- (move_rho H). apply atan2_spec. Qed.
  Lemma move_dot lon : 0 <= cos f -> dot f lon (asin S) (lon + atan2 aa bb) = cos t.
  Proof.
    intros H. unfold dot. rewrite sin_asin by apply move_range.
    replace (lon - (lon + atan2 aa bb)) with (- atan2 aa bb) by ring. rewrite cos_neg.
    destruct (move_dlon H) as [_ C]. rewrite C. unfold bb. ring.
  Qed.
  Lemma move_bear lon : 0 < cos f ->
    sin (lon + atan2 aa bb - lon) * cos (asin S) = sin t * sin b /\
    cos f * sin (asin S) - sin f * cos (asin S) * cos (lon + atan2 aa bb - lon) = sin t * cos b.
  Proof.
    intros H. replace (lon + atan2 aa bb - lon) with (atan2 aa bb) by ring.
    destruct (move_dlon ltac:(lra)) as [A B]. pose proof move_bb as MB.
    assert (A' : cos (asin S) * sin (atan2 aa bb) = sin t * sin b).
    { apply (Rmult_eq_reg_l (cos f)); [|lra]. rewrite <- Rmult_assoc, A. unfold aa. ring. }
    assert (B' : cos (asin S) * cos (atan2 aa bb) = cos f * cos t - sin f * sin t * cos b).
    { apply (Rmult_eq_reg_l (cos f)); [|lra]. rewrite <- Rmult_assoc. rewrite B, MB. ring. }
    split; [rewrite Rmult_comm; exact A'|].
    rewrite Rmult_assoc, B', sin_asin by apply move_range. unfold S. pose proof (sc2 f) as F.
    transitivity ((sin f ^ 2 + cos f ^ 2) * (sin t * cos b)); [ring | rewrite F; ring].
  Qed.
End Move.

Lemma move_distance b d lon lat : - 90 <= lat <= 90 -> 0 <= d <= earth * PI ->
  distGC lat (snd (bear2LatLon b d lon lat)) lon (fst (bear2LatLon b d lon lat)) = d.
Proof.
  intros Hl Hd. rewrite distGC_eq. unfold bear2LatLon. cbn [fst snd]. rewrite !rad_deg. unfold newLat.
  rewrite sin_asin by apply move_range.
  rewrite move_dot by now apply rad_quarter.
  unfold earth in *. rewrite acos_cos by (split; [apply Rmult_le_reg_l with 6367 | apply Rmult_le_reg_l with 6367]; try lra; field_simplify; lra).
  field.
Qed.
Lemma newLat_range b d lon lat : - 90 <= snd (bear2LatLon b d lon lat) <= 90.
Proof.
  unfold bear2LatLon. cbn [snd]. unfold newLat, degrees. pose proof PI_RGT_0.
  match goal with |- context [asin ?s] => pose proof (asin_bound s) as B; set (a := asin s) in * end.
  split; (apply Rmult_le_reg_r with PI; [lra|]; unfold Rdiv; rewrite Rmult_assoc, Rinv_l by lra; lra).
Qed.
Lemma move_direction b d lon lat : - 90 < lat < 90 -> 0 < d < earth * PI ->
  let bear := gridBear lon lat (fst (bear2LatLon b d lon lat)) (snd (bear2LatLon b d lon lat)) in
  sin bear = sin (radians b) /\ cos bear = cos (radians b).
Proof.
  intros Hl Hd. cbv zeta. unfold gridBear, bearAlpha, bearBeta, bear2LatLon. cbn [fst snd]. rewrite !rad_deg. unfold newLat.
  set (t := d / earth). set (f := radians lat). set (B := radians b).

  destruct (move_bear B t f (radians lon) (rad_quarter' lat Hl)) as [E1 E2].
  rewrite !sin_asin in E2 |- * by apply move_range. rewrite !E1, !E2.
  assert (T : 0 < sin t).
  { apply sin_gt_0; unfold t, earth in *; [lra|]. apply Rmult_lt_reg_l with 6367; [lra|]. field_simplify; lra. }
  pose proof (atan2_spec (sin t * sin B) (sin t * cos B)) as [S C].
  replace ((sin t * sin B) ^ 2 + (sin t * cos B) ^ 2) with (sin t ^ 2) in S, C
    by (pose proof (sc2 B) as Q; transitivity (sin t ^ 2 * (sin B ^ 2 + cos B ^ 2)); [rewrite Q; ring | ring]).
  rewrite sqrt_pow2 in S, C by lra. split; (apply (Rmult_eq_reg_l (sin t)); [lra | apply Rgt_not_eq; lra]).
Qed.

(** A track: consecutive positions, and how far it can get. *)
Lemma track_step dt steps p i b v q q' : 0 <= dt -> - 90 <= snd p <= 90 ->
  nth_error steps i = Some (b, v) -> nth_error (positions dt steps p) i = Some q ->
  nth_error (positions dt steps p) (S i) = Some q' -> 0 <= v -> dt * v <= earth * PI ->
  distGC (snd q) (snd q') (fst q) (fst q') = dt * v.
Proof.
  intros Hdt. revert p i. induction steps as [|(b0, v0) r IH]; intros p i Hp E Q Q' Hv Hd; [destruct i; discriminate|].
  destruct i as [|i]; cbn [nth_error positions] in *.
  - injection E as -> ->. injection Q as <-.
    assert (q' = bear2LatLon b (dt * v) (fst p) (snd p)) by (destruct r as [|(? & ?) ?]; cbn in Q'; now injection Q' as <-).
    subst q'. apply move_distance; [exact Hp | split; [nra | exact Hd]].
  - apply (IH (bear2LatLon b0 (dt * v0) (fst p) (snd p)) i); try assumption. apply newLat_range.
Qed.
Lemma track_reach dt steps p i q : 0 <= dt -> - 90 <= snd p <= 90 ->
  (forall b v, In (b, v) steps -> 0 <= v /\ dt * v <= earth * PI) ->
  nth_error (positions dt steps p) i = Some q ->
  distGC (snd p) (snd q) (fst p) (fst q) <= dt * fold_right Rplus 0 (map snd (firstn i steps)).
Proof.
  intros Hdt. revert p i. induction steps as [|(b0, v0) r IH]; intros p i Hp H Q.
  - assert (q = p) by (destruct i as [|[|i]]; cbn in Q; congruence). subst q.
    assert (Z : distGC (snd p) (snd p) (fst p) (fst p) = 0) by now apply distGC_zero.
    rewrite Z. destruct i; cbn; lra.
  - destruct i as [|i]; cbn [nth_error positions firstn map fold_right snd] in *.
    + injection Q as <-. assert (Z : distGC (snd p) (snd p) (fst p) (fst p) = 0) by now apply distGC_zero. rewrite Z. lra.
    + destruct (H b0 v0 (or_introl eq_refl)) as [Hv Hd].
      specialize (IH (bear2LatLon b0 (dt * v0) (fst p) (snd p)) i (newLat_range _ _ _ _)
                     (fun b v I => H b v (or_intror I)) Q).
      pose proof (move_distance b0 (dt * v0) (fst p) (snd p) Hp ltac:(split; [nra | exact Hd])) as M.
      pose proof (distGC_triangle (snd p) (snd (bear2LatLon b0 (dt * v0) (fst p) (snd p))) (snd q) (fst p)
                    (fst (bear2LatLon b0 (dt * v0) (fst p) (snd p))) (fst q)). lra.
Qed.

(** * Compiled grid *)
Lemma compiled_theta cLon cLat lon lat : fgridTheta cLon cLat lon lat = gridTheta cLon cLat lon lat.
Proof.
  unfold fgridTheta, gridTheta, gridBear, bearAlpha, bearBeta, radians. cbv zeta.
  replace (1 / 2 * PI) with (PI / 2) by field.
  replace (lon * (PI / 180)) with (lon * PI / 180) by field. replace (cLon * (PI / 180)) with (cLon * PI / 180) by field.
  replace (lat * (PI / 180)) with (lat * PI / 180) by field. replace (cLat * (PI / 180)) with (cLat * PI / 180) by field.
  reflexivity.
Qed.
Lemma compiled_R cLon cLat lon lat : fgridR cLon cLat lon lat = Rmax (gridDist cLon cLat lon lat) (/ 10 ^ 30).
Proof.
  unfold fgridR, gridDist, hav, radians. cbv zeta.
  replace (lon * (PI / 180)) with (lon * PI / 180) by field. replace (cLon * (PI / 180)) with (cLon * PI / 180) by field.
  replace (lat * (PI / 180)) with (lat * PI / 180) by field. replace (cLat * (PI / 180)) with (cLat * PI / 180) by field.
  replace (1 / 2 * (lat * PI / 180 - cLat * PI / 180)) with ((lat * PI / 180 - cLat * PI / 180) / 2) by field.
  replace (1 / 2 * (lon * PI / 180 - cLon * PI / 180)) with ((lon * PI / 180 - cLon * PI / 180) / 2) by field.
  f_equal. f_equal. f_equal. f_equal; f_equal; [f_equal|]; ring.
Qed.
Lemma compiled_R_eq cLon cLat lon lat :
  gridDist cLon cLat lon lat = 0 \/ / 10 ^ 30 <= gridDist cLon cLat lon lat ->
  fgridR cLon cLat lon lat = gridR cLon cLat lon lat.
Proof.
  intros H. assert (P : 0 < / 10 ^ 30) by (apply Rinv_0_lt_compat, pow_lt; lra).
  rewrite compiled_R. unfold gridR. cbv zeta. unfold req. set (e := / 10 ^ 30) in *.
  destruct (Req_EM_T (gridDist cLon cLat lon lat) 0) as [E | N].
  - rewrite E. apply Rmax_right. lra.
  - destruct H as [H | H]; [contradiction|]. apply Rmax_left. lra.
Qed.
Lemma compiled_R_close cLon cLat lon lat :
  Rabs (fgridR cLon cLat lon lat - gridR cLon cLat lon lat) < / 10 ^ 30.
Proof.
  assert (P : 0 < / 10 ^ 30) by (apply Rinv_0_lt_compat, pow_lt; lra).
  rewrite compiled_R. unfold gridR. cbv zeta. pose proof (distGC_range cLat lat cLon lon) as [D _].
  rewrite <- gridDist_distGC in D. unfold req. set (e := / 10 ^ 30) in *.
  destruct (Req_EM_T (gridDist cLon cLat lon lat) 0) as [E | N]; unfold Rmax; destruct (Rle_dec _ e).
  - rewrite Rminus_diag_eq by reflexivity. now rewrite Rabs_R0.
  - lra.
  - rewrite Rabs_right; lra.
  - rewrite Rminus_diag_eq by reflexivity. now rewrite Rabs_R0.
Qed.
Lemma gridR_pos cLon cLat lon lat : 0 < gridR cLon cLat lon lat /\ / 10 ^ 30 <= fgridR cLon cLat lon lat.
Proof.
  assert (P : 0 < / 10 ^ 30) by (apply Rinv_0_lt_compat, pow_lt; lra).
  split; [|rewrite compiled_R; apply Rmax_r].
  unfold gridR. cbv zeta. pose proof (distGC_range cLat lat cLon lon) as [D _].
  rewrite <- gridDist_distGC in D. unfold req. set (e := / 10 ^ 30) in *. destruct (Req_EM_T _ 0); lra.
Qed.

(** * Historical steps *)
Lemma azi_components lat0 lon0 lat1 lon1 :
  let '(b, d) := latLon2Azi 1 0 lat0 lon0 lat1 lon1 in
  d * cos b = earth * (radians lat1 - radians lat0) /\
  d * sin b = earth * (radians lon1 - radians lon0) * cos (radians lat1) /\ 0 <= b < 2 * PI /\ 0 <= d.
Proof.
  unfold latLon2Azi, latLon2XY. replace (radians 0) with 0 by (unfold radians; field). rewrite cos_0, sin_0.
  set (n := earth * (radians lat1 - radians lat0)).
  set (e := 1 * earth * (radians lon1 - radians lon0) * cos (radians lat1)).
  replace (n * 1 + e * 0) with n by ring. replace (- n * 0 + e * 1) with e by ring.
  destruct (bearing_dir (atan2 n e)) as [S C]. rewrite S, C. destruct (atan2_spec n e) as [A B].
  repeat split; [exact A | rewrite B; unfold e; ring | apply rmod_range, PI2_pos | apply rmod_range, PI2_pos | apply sqrt_pos].
Qed.
Lemma azi_meridian lat0 lat1 lon : - 90 <= lat0 <= 90 -> - 90 <= lat1 <= 90 ->
  snd (latLon2Azi 1 0 lat0 lon lat1 lon) = distGC lat0 lat1 lon lon.
Proof.
  intros H0 H1. unfold latLon2Azi, latLon2XY. cbn [snd]. replace (radians 0) with 0 by (unfold radians; field). rewrite cos_0, sin_0.
  set (x := radians lat1 - radians lat0).
  replace ((earth * x * 1 + 1 * earth * (radians lon - radians lon) * cos (radians lat1) * 0) ^ 2 +
           (- (earth * x) * 0 + 1 * earth * (radians lon - radians lon) * cos (radians lat1) * 1) ^ 2)
    with ((earth * x)²) by (unfold Rsqr; ring).
  rewrite sqrt_Rsqr_abs. rewrite distGC_eq. unfold dot. rewrite Rminus_diag_eq by reflexivity. rewrite cos_0, Rmult_1_r.
  replace (sin (radians lat0) * sin (radians lat1) + cos (radians lat0) * cos (radians lat1)) with (cos x)
    by (unfold x; rewrite cos_minus; ring).
  rewrite Rabs_mult, (Rabs_right earth) by (unfold earth; lra). f_equal.
  assert (X : - PI <= x <= PI) by (unfold x, radians; pose proof PI_RGT_0; nra).
  unfold Rabs. destruct (Rcase_abs x).
  - rewrite <- (cos_neg x). now rewrite acos_cos by lra.
  - now rewrite acos_cos by lra.
Qed.
(** not the distance back, and not the great circle distance *)
Lemma azi_asym : snd (latLon2Azi 1 0 0 0 60 90) < snd (latLon2Azi 1 0 60 90 0 0).
Proof.
  unfold latLon2Azi, latLon2XY. cbn [snd]. replace (radians 0) with 0 by (unfold radians; field). rewrite !cos_0, !sin_0.
  replace (radians 60) with (PI / 3) by (unfold radians; field). replace (radians 90) with (PI / 2) by (unfold radians; field).
  rewrite cos_PI3. apply sqrt_lt_1_alt. pose proof PI_RGT_0 as P. unfold earth. split; nra.
Qed.
Lemma azi_not_gc : snd (latLon2Azi 1 0 60 0 60 180) <> distGC 60 60 0 180.
Proof.
  unfold latLon2Azi, latLon2XY. cbn [snd]. rewrite distGC_eq. replace (radians 0) with 0 by (unfold radians; field). rewrite cos_0, sin_0.
  replace (radians 60) with (PI / 3) by (unfold radians; field). replace (radians 180) with PI by (unfold radians; field).
  unfold dot. rewrite Rminus_0_l, cos_neg, cos_PI, cos_PI3, sin_PI3.
  replace (sqrt 3 / 2 * (sqrt 3 / 2) + 1 / 2 * (1 / 2) * -1) with (1 / 2)
    by (pose proof (sqrt_sqrt 3 ltac:(lra)) as Q; lra).
  replace (acos (1 / 2)) with (PI / 3) by (rewrite <- cos_PI3; symmetry; apply acos_cos; pose proof PI_RGT_0; lra).
  replace ((earth * (PI / 3 - PI / 3) * 1 + 1 * earth * (PI - 0) * (1 / 2) * 0) ^ 2 +
           (- (earth * (PI / 3 - PI / 3)) * 0 + 1 * earth * (PI - 0) * (1 / 2) * 1) ^ 2)
    with ((earth * PI * (1 / 2))²) by (unfold Rsqr; field).
  pose proof PI_RGT_0. rewrite sqrt_Rsqr by (unfold earth; lra). unfold earth. lra.
Qed.

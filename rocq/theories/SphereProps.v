(** C46, C100-C105: directions, distances and grids on the sphere. *)
From Coq Require Import Reals Lra Psatz List QArith.
From Verif Require Import CircleModel WindModel WindProofs6 SphereModel SphereProofs SphereProofs2 SphereProofs3
  ExtremesModel MeshModel MeshProofs.
Import ListNotations.
Close Scope Q_scope.
Open Scope R_scope.

(** ** C46 *)
Theorem c46_range : forall x, 0 <= bearing2theta x < 2 * PI /\ 0 <= theta2bearing x < 2 * PI.
Proof. intros x. split; apply rmod_range, PI2_pos. Qed.
Theorem c46_inverse : forall b, exists k : Z,
  theta2bearing (bearing2theta b) = b + 2 * PI * IZR k /\
  exists j : Z, bearing2theta (theta2bearing b) = b + 2 * PI * IZR j.
Proof.
  intros b. rewrite turn_back, turn_back'. destruct (rmod_cong b (2 * PI)) as [k E].
  exists k. split; [exact E | exists k; exact E].
Qed.
Theorem c46_identity : forall x, 0 <= x < 2 * PI ->
  theta2bearing (bearing2theta x) = x /\ bearing2theta (theta2bearing x) = x.
Proof. intros x H. rewrite turn_back, turn_back'. now rewrite rmod_id. Qed.
(** east and north components of the direction *)
Theorem c46_direction : forall x,
  cos (bearing2theta x) = sin x /\ sin (bearing2theta x) = cos x /\
  sin (theta2bearing x) = cos x /\ cos (theta2bearing x) = sin x.
Proof. intros x. destruct (theta_dir x), (bearing_dir x). auto. Qed.

(** ** C100 *)
Theorem c100_agree : forall lon0 lat0 lon1 lat1, gridDist lon0 lat0 lon1 lat1 = distGC lat0 lat1 lon0 lon1.
Proof. exact gridDist_distGC. Qed.
Theorem c100_metric : forall la lona lb lonb lc lonc,
  0 <= distGC la lb lona lonb <= earth * PI /\
  distGC la lb lona lonb = distGC lb la lonb lona /\
  distGC la lc lona lonc <= distGC la lb lona lonb + distGC lb lc lonb lonc.
Proof. intros. split; [apply distGC_range|]. split; [apply distGC_sym | apply distGC_triangle]. Qed.
(** zero exactly for the same point *)
Theorem c100_zero : forall la lona lb lonb, distGC la lb lona lonb = 0 <->
  (cos (radians la) * cos (radians lona) = cos (radians lb) * cos (radians lonb) /\
   cos (radians la) * sin (radians lona) = cos (radians lb) * sin (radians lonb) /\
   sin (radians la) = sin (radians lb)).
Proof.
  intros. rewrite distGC_zero. unfold unitv. split.
  - intros E. injection E as A B C. auto.
  - intros (A & B & C). now rewrite A, B, C.
Qed.

(** ** C101 *)
Theorem c101_move : forall bearing distance lon lat, - 90 <= lat <= 90 -> 0 <= distance <= earth * PI ->
  let '(lon', lat') := bear2LatLon bearing distance lon lat in
  distGC lat lat' lon lon' = distance /\ - 90 <= lat' <= 90.
Proof.
  intros b d lon lat Hl Hd. pose proof (move_distance b d lon lat Hl Hd) as M. pose proof (newLat_range b d lon lat) as N.
  destruct (bear2LatLon b d lon lat) as [lon' lat']. cbn [fst snd] in *. auto.
Qed.
Theorem c101_bearing : forall bearing distance lon lat, - 90 < lat < 90 -> 0 < distance < earth * PI ->
  let '(lon', lat') := bear2LatLon bearing distance lon lat in
  sin (gridBear lon lat lon' lat') = sin (radians bearing) /\ cos (gridBear lon lat lon' lat') = cos (radians bearing).
Proof.
  intros b d lon lat Hl Hd. pose proof (move_direction b d lon lat Hl Hd) as M. cbv zeta in M.
  destruct (bear2LatLon b d lon lat) as [lon' lat']. exact M.
Qed.
(** in a track: consecutive positions are the recorded speed times the time step apart, and no position is
    farther from the start than the way travelled *)
Theorem c101_track : forall dt steps start i b v q q', 0 <= dt -> - 90 <= snd start <= 90 ->
  nth_error steps i = Some (b, v) -> nth_error (positions dt steps start) i = Some q ->
  nth_error (positions dt steps start) (S i) = Some q' -> 0 <= v -> dt * v <= earth * PI ->
  distGC (snd q) (snd q') (fst q) (fst q') = dt * v.
Proof. exact track_step. Qed.
Theorem c101_reach : forall dt steps start i q, 0 <= dt -> - 90 <= snd start <= 90 ->
  (forall b v, In (b, v) steps -> 0 <= v /\ dt * v <= earth * PI) ->
  nth_error (positions dt steps start) i = Some q ->
  distGC (snd start) (snd q) (fst start) (fst q) <= dt * fold_right Rplus 0 (map snd (firstn i steps)).
Proof. exact track_reach. Qed.
Example c101_example : exists q q', nth_error (positions 1 [(90, 20); (45, 10)] (150, Ropp 20)) 1 = Some q /\
  nth_error (positions 1 [(90, 20); (45, 10)] (150, Ropp 20)) 2 = Some q' /\
  distGC (snd q) (snd q') (fst q) (fst q') = 10.
Proof.
  eexists. eexists. split; [reflexivity|]. split; [reflexivity|].
  transitivity (1 * 10); [|lra].
  eapply (track_step 1 [(90, 20); (45, 10)] (150, Ropp 20) 1 45 10); try reflexivity; cbn [snd]; try lra.
  unfold earth. pose proof PI_range. lra.
Qed.

(** ** C102 *)
Theorem c102_theta : forall cLon cLat lon lat, fgridTheta cLon cLat lon lat = gridTheta cLon cLat lon lat.
Proof. exact compiled_theta. Qed.
Theorem c102_distance : forall cLon cLat lon lat,
  Rabs (fgridR cLon cLat lon lat - gridR cLon cLat lon lat) < / 10 ^ 30 /\
  (gridDist cLon cLat lon lat = 0 \/ / 10 ^ 30 <= gridDist cLon cLat lon lat ->
   fgridR cLon cLat lon lat = gridR cLon cLat lon lat).
Proof. intros. split; [apply compiled_R_close | apply compiled_R_eq]. Qed.
(** no division by zero at the storm centre *)
Theorem c102_positive : forall cLon cLat lon lat, 0 < gridR cLon cLat lon lat /\ 0 < fgridR cLon cLat lon lat.
Proof.
  intros. destruct (gridR_pos cLon cLat lon lat) as [A B]. split; [exact A|].
  assert (0 < / 10 ^ 30) by (apply Rinv_0_lt_compat, pow_lt; lra). lra.
Qed.

(** ** C103 *)
Theorem c103_components_partial : forall lat0 lon0 lat1 lon1,
  let '(b, d) := latLon2Azi 1 0 lat0 lon0 lat1 lon1 in
  d * cos b = earth * (radians lat1 - radians lat0) /\
  d * sin b = earth * (radians lon1 - radians lon0) * cos (radians lat1) /\ 0 <= b < 2 * PI /\ 0 <= d.
Proof. exact azi_components. Qed.
Theorem c103_meridian_partial : forall lat0 lat1 lon, - 90 <= lat0 <= 90 -> - 90 <= lat1 <= 90 ->
  snd (latLon2Azi 1 0 lat0 lon lat1 lon) = distGC lat0 lat1 lon lon.
Proof. exact azi_meridian. Qed.
Theorem c103_great_circle_refuted : ~ forall lat0 lon0 lat1 lon1, - 90 <= lat0 <= 90 -> - 90 <= lat1 <= 90 ->
  snd (latLon2Azi 1 0 lat0 lon0 lat1 lon1) = distGC lat0 lat1 lon0 lon1.
Proof. intros H. apply azi_not_gc. apply H; lra. Qed.
Theorem c103_symmetric_refuted : ~ forall lat0 lon0 lat1 lon1,
  snd (latLon2Azi 1 0 lat0 lon0 lat1 lon1) = snd (latLon2Azi 1 0 lat1 lon1 lat0 lon0).
Proof. intros H. pose proof azi_asym as A. rewrite H in A. lra. Qed.

(** ** C104 *)
Theorem c104_line_refuted : ~ forall f rMax Vabs V r lam vFm thetaFm configured, 0 <= V -> 0 < Vabs -> 0 <= vFm ->
  speed (mcconochie f rMax Vabs V r lam vFm thetaFm (passedThetaMax configured)) <=
  speed (mcconochie f rMax Vabs V r (thetaFm + radians configured) vFm thetaFm (passedThetaMax configured)) + 1 / 100.
Proof.
  intros H. destruct line_wrong as [lam L]. cbv zeta in L.
  specialize (H 1 1 10 10 1 lam 10 0 70 ltac:(lra) ltac:(lra) ltac:(lra)). rewrite Rplus_0_l in H. lra.
Qed.
(** The wind is strongest on the line at the angle given to the model, in degrees. *)
Theorem c104_model_partial : forall f rMax Vabs V r lam vFm thetaFm thetaMax, 0 <= V -> 0 < Vabs -> 0 <= vFm ->
  speed (mcconochie f rMax Vabs V r lam vFm thetaFm thetaMax) <=
  speed (mcconochie f rMax Vabs V r (thetaFm + radians thetaMax) vFm thetaFm thetaMax) + 1 / 100.
Proof. exact line_max. Qed.

(** ** C105 *)
Theorem c105_agree_partial : forall c margin res m g n, (1000 * margin == inject_Z m)%Q -> qint (1000 * res) = g ->
  (0 < g)%Z -> (0 <= n)%Z -> (2 * m = n * g)%Z -> (0 <= c - margin)%Q \/ (c + margin <= 0)%Q -> (0 <= margin)%Q ->
  meshAxis c margin res = makeGridAxis c margin res.
Proof. exact mesh_agrees. Qed.
Example c105_defaults : meshAxis 15005 2 (2 # 100) = makeGridAxis 15005 2 (2 # 100).
Proof.
  apply c105_agree_partial with (m := 2000%Z) (g := 20%Z) (n := 200%Z); try reflexivity; try lia; try discriminate.
  left. discriminate.
Qed.
Theorem c105_refuted : exists c margin res, (0 < margin)%Q /\ (0 < res)%Q /\ meshAxis c margin res <> makeGridAxis c margin res.
Proof. exists (1 # 2000)%Q, 2%Q, (20 # 1000)%Q. repeat split. exact mesh_differs. Qed.
Theorem c105_length_refuted : exists c margin res, (0 < margin)%Q /\ (0 < res)%Q /\ (0 <= c - margin)%Q /\
  length (meshAxis c margin res) <> length (makeGridAxis c margin res).
Proof. exists 100%Q, 2%Q, (30 # 1000)%Q. repeat split; try discriminate. Qed.
Print Assumptions c46_range.
Print Assumptions c46_inverse.
Print Assumptions c46_identity.
Print Assumptions c46_direction.
Print Assumptions c100_agree.
Print Assumptions c100_metric.
Print Assumptions c100_zero.
Print Assumptions c101_move.
Print Assumptions c101_bearing.
Print Assumptions c101_track.
Print Assumptions c101_reach.
Print Assumptions c102_theta.
Print Assumptions c102_distance.
Print Assumptions c102_positive.
Print Assumptions c103_components_partial.
Print Assumptions c103_meridian_partial.
Print Assumptions c103_great_circle_refuted.
Print Assumptions c103_symmetric_refuted.
Print Assumptions c104_line_refuted.
Print Assumptions c104_model_partial.
Print Assumptions c105_agree_partial.
Print Assumptions c105_refuted.
Print Assumptions c105_length_refuted.

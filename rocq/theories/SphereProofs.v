(** Proofs about SphereModel.v. *)
From Coq Require Import Reals Lra Psatz.
From Verif Require Import CircleModel CircleProofs WindModel WindProofs WindProofs5 SphereModel.
Open Scope R_scope.

(** * Angles *)
Lemma rmod_range x m : 0 < m -> 0 <= rmod x m < m.
Proof.
  intros H. unfold rmod. pose proof (base_Int_part (x / m)) as [A B].
  assert (E : x = m * (x / m)) by (field; lra). set (k := IZR (Int_part (x / m))) in *.
  set (q := x / m) in *. rewrite E. split; nra.
Qed.
Lemma rmod_cong x m : exists k : Z, rmod x m = x + m * IZR k.
Proof. exists (- Int_part (x / m))%Z. unfold rmod. rewrite opp_IZR. ring. Qed.
Lemma rmod_unique x y m (k : Z) : 0 < m -> 0 <= y < m -> y = x + m * IZR k -> rmod x m = y.
Proof.
  intros H [A B] E. destruct (rmod_cong x m) as [j J]. pose proof (rmod_range x m H) as [C D].
  assert (K : (j = k)%Z).
  { assert (L : m * (IZR j - IZR k) = rmod x m - y) by (rewrite J, E; ring).
    assert (-1 < IZR j - IZR k < 1) by (split; nra).
    rewrite <- minus_IZR in H0. destruct H0 as [U V]. apply lt_IZR in U, V. lia. }
  subst k. lra.
Qed.
Lemma cong_trig x (k : Z) : sin (x + 2 * PI * IZR k) = sin x /\ cos (x + 2 * PI * IZR k) = cos x.
Proof.
  assert (P : forall n, sin (x + 2 * INR n * PI) = sin x /\ cos (x + 2 * INR n * PI) = cos x)
    by (intros n; split; [apply sin_period | apply cos_period]).
  destruct (Z.le_gt_cases 0 k) as [L | L].
  - specialize (P (Z.to_nat k)). rewrite INR_IZR_INZ, Z2Nat.id in P by lia.
    replace (x + 2 * PI * IZR k) with (x + 2 * IZR k * PI) by ring. exact P.
  - set (y := x + 2 * PI * IZR k). pose proof (sin_period y (Z.to_nat (- k))) as S. pose proof (cos_period y (Z.to_nat (- k))) as C.
    rewrite INR_IZR_INZ, Z2Nat.id, opp_IZR in S, C by lia.
    replace (y + 2 * - IZR k * PI) with x in S, C by (unfold y; ring). lra.
Qed.
Lemma rmod_trig x : sin (rmod x (2 * PI)) = sin x /\ cos (rmod x (2 * PI)) = cos x.
Proof. destruct (rmod_cong x (2 * PI)) as [k ->]. apply cong_trig. Qed.
Lemma PI2_pos : 0 < 2 * PI.
Proof. pose proof PI_RGT_0. lra. Qed.
Lemma turn_back b : theta2bearing (bearing2theta b) = rmod b (2 * PI).
Proof.
  unfold theta2bearing, bearing2theta. destruct (rmod_cong (PI / 2 - b) (2 * PI)) as [k E]. rewrite E.
  destruct (rmod_cong b (2 * PI)) as [j J].
  apply rmod_unique with (k := (j + k - 1)%Z); [apply PI2_pos | apply rmod_range, PI2_pos |].
  rewrite J, minus_IZR, plus_IZR. field.
Qed.
Lemma turn_back' t : bearing2theta (theta2bearing t) = rmod t (2 * PI).
Proof.
  unfold theta2bearing, bearing2theta. destruct (rmod_cong (2 * PI - (t - PI / 2)) (2 * PI)) as [k E]. rewrite E.
  destruct (rmod_cong t (2 * PI)) as [j J].
  apply rmod_unique with (k := (j + k + 1)%Z); [apply PI2_pos | apply rmod_range, PI2_pos |].
  rewrite J, !plus_IZR. field.
Qed.
Lemma rmod_id x m : 0 <= x < m -> rmod x m = x.
Proof. intros H. apply rmod_unique with (k := 0%Z); lra. Qed.
(** the direction: east and north components *)
Lemma theta_dir b : cos (bearing2theta b) = sin b /\ sin (bearing2theta b) = cos b.
Proof.
  unfold bearing2theta. destruct (rmod_trig (PI / 2 - b)) as [-> ->]. split; [apply cos_shift | apply sin_shift].
Qed.
Lemma bearing_dir t : sin (theta2bearing t) = cos t /\ cos (theta2bearing t) = sin t.
Proof.
  unfold theta2bearing. destruct (rmod_trig (2 * PI - (t - PI / 2))) as [-> ->].
  replace (2 * PI - (t - PI / 2)) with (PI / 2 - t + 2 * PI * IZR 1) by (rewrite Rmult_1_r; field).
  destruct (cong_trig (PI / 2 - t) 1) as [-> ->]. split; [apply sin_shift | apply cos_shift].
Qed.

(** * Distance *)
(** cosine of the angle between two points *)
Definition dot (lat0 lon0 lat1 lon1 : R) : R :=
  sin lat0 * sin lat1 + cos lat0 * cos lat1 * cos (lon0 - lon1).
Lemma sc2 x : sin x ^ 2 + cos x ^ 2 = 1.
Proof. pose proof (sin2_cos2 x) as H. unfold Rsqr in H. lra. Qed.

Section Vec.
  (** unit vectors *)
  Record vec := { v1 : R; v2 : R; v3 : R }.
  Definition vdot (a b : vec) : R := v1 a * v1 b + v2 a * v2 b + v3 a * v3 b.
  Definition unitv (lat lon : R) : vec := {| v1 := cos lat * cos lon; v2 := cos lat * sin lon; v3 := sin lat |}.
  Lemma unit_1 lat lon : vdot (unitv lat lon) (unitv lat lon) = 1.
  Proof.
    unfold vdot, unitv. cbn [v1 v2 v3].
    transitivity (cos lat ^ 2 * (sin lon ^ 2 + cos lon ^ 2) + sin lat ^ 2); [ring|].
    rewrite sc2. pose proof (sc2 lat). lra.
  Qed.
  Lemma dot_vdot lat0 lon0 lat1 lon1 : dot lat0 lon0 lat1 lon1 = vdot (unitv lat0 lon0) (unitv lat1 lon1).
  Proof. unfold dot, vdot, unitv. cbn [v1 v2 v3]. rewrite cos_minus. ring. Qed.
  Lemma vdot_sq a b : vdot a a = 1 -> vdot b b = 1 -> vdot a b ^ 2 <= 1.
  Proof.
    intros A B.
    assert (E : vdot a b ^ 2 + (v2 a * v3 b - v3 a * v2 b) ^ 2 + (v3 a * v1 b - v1 a * v3 b) ^ 2 +
                (v1 a * v2 b - v2 a * v1 b) ^ 2 = vdot a a * vdot b b) by (unfold vdot; ring).
    rewrite A, B in E. pose proof (pow2_ge_0 (v2 a * v3 b - v3 a * v2 b)).
    pose proof (pow2_ge_0 (v3 a * v1 b - v1 a * v3 b)). pose proof (pow2_ge_0 (v1 a * v2 b - v2 a * v1 b)). lra.
  Qed.
  Lemma sq_le_1 x : x ^ 2 <= 1 -> -1 <= x <= 1.
  Proof. intros H. split; nra. Qed.
  Lemma vdot_range a b : vdot a a = 1 -> vdot b b = 1 -> -1 <= vdot a b <= 1.
  Proof. intros A B. apply sq_le_1. now apply vdot_sq. Qed.
  (** Gram determinant *)
  Lemma gram a b c : vdot a a = 1 -> vdot b b = 1 -> vdot c c = 1 ->
    (vdot a c - vdot a b * vdot b c) ^ 2 <= (1 - vdot a b ^ 2) * (1 - vdot b c ^ 2).
  Proof.
    intros A B C.
    assert (E : (v1 a * (v2 b * v3 c - v3 b * v2 c) - v2 a * (v1 b * v3 c - v3 b * v1 c) + v3 a * (v1 b * v2 c - v2 b * v1 c)) ^ 2
      = vdot a a * vdot b b * vdot c c + 2 * vdot a b * vdot b c * vdot a c
        - vdot a a * vdot b c ^ 2 - vdot b b * vdot a c ^ 2 - vdot c c * vdot a b ^ 2) by (unfold vdot; ring).
    rewrite A, B, C in E.
    pose proof (pow2_ge_0 (v1 a * (v2 b * v3 c - v3 b * v2 c) - v2 a * (v1 b * v3 c - v3 b * v1 c) + v3 a * (v1 b * v2 c - v2 b * v1 c))) as P.
    rewrite E in P. lra.
  Qed.
  Lemma angle_triangle a b c : vdot a a = 1 -> vdot b b = 1 -> vdot c c = 1 ->
    acos (vdot a c) <= acos (vdot a b) + acos (vdot b c).
  Proof.
    intros A B C. pose proof (vdot_range a b A B) as Rab. pose proof (vdot_range b c B C) as Rbc. pose proof (vdot_range a c A C) as Rac.
    pose proof (acos_bound (vdot a b)) as Bab. pose proof (acos_bound (vdot b c)) as Bbc. pose proof (acos_bound (vdot a c)) as Bac.
    destruct (Rle_or_lt PI (acos (vdot a b) + acos (vdot b c))) as [L | L]; [lra|].
    apply cos_decr_0; try lra.
    rewrite cos_plus, !cos_acos by lra. rewrite !sin_acos by lra.
    pose proof (gram a b c A B C) as G.
    assert (P : 0 <= 1 - (vdot a b)²) by (unfold Rsqr; nra). assert (Q : 0 <= 1 - (vdot b c)²) by (unfold Rsqr; nra).
    rewrite <- sqrt_mult by assumption.
    assert (K : Rabs (vdot a c - vdot a b * vdot b c) <= sqrt ((1 - (vdot a b)²) * (1 - (vdot b c)²))).
    { rewrite <- sqrt_Rsqr_abs. apply sqrt_le_1_alt. unfold Rsqr in *. lra. }
    pose proof (Rle_abs (- (vdot a c - vdot a b * vdot b c))) as M. rewrite Rabs_Ropp in M. lra.
  Qed.
End Vec.

Lemma dot_range lat0 lon0 lat1 lon1 : -1 <= dot lat0 lon0 lat1 lon1 <= 1.
Proof. rewrite dot_vdot. apply vdot_range; apply unit_1. Qed.
Lemma distGC_eq lat0 lat1 lon0 lon1 :
  distGC lat0 lat1 lon0 lon1 = earth * acos (dot (radians lat0) (radians lon0) (radians lat1) (radians lon1)).
Proof. reflexivity. Qed.
Lemma sin_half x : sin (x / 2) ^ 2 = (1 - cos x) / 2.
Proof.
  pose proof (cos_2a_sin (x / 2)) as H. replace (2 * (x / 2)) with x in H by field. rewrite H. unfold Rsqr. field.
Qed.
Lemma hav_eq cLon cLat lon lat :
  hav cLon cLat lon lat = (1 - dot (radians cLat) (radians cLon) (radians lat) (radians lon)) / 2.
Proof.
  unfold hav, dot. rewrite !sin_half. rewrite (cos_minus (radians lat)).
  replace (radians cLon - radians lon) with (- (radians lon - radians cLon)) by ring. rewrite cos_neg. field.
Qed.
Lemma atan2_quadrant y x : 0 <= y -> 0 <= x -> 0 <= atan2 y x <= PI / 2.
Proof.
  intros Hy Hx. pose proof PI_RGT_0. unfold atan2. destruct (rlt 0 x) eqn:E.
  - apply rlt_true in E. assert (0 <= y / x) by (apply Rmult_le_pos; [lra | left; now apply Rinv_0_lt_compat]).
    pose proof (atan_bound (y / x)). split; [|lra].
    destruct (Req_dec (y / x) 0) as [-> | N]; [rewrite atan_0; lra|].
    rewrite <- atan_0. left. apply atan_increasing. lra.
  - rewrite (proj2 (rlt_false x 0)) by lra. rewrite (proj2 (rlt_false y 0)) by lra.
    destruct (rlt 0 y); lra.
Qed.
Lemma dist_angle cLon cLat lon lat : let a := hav cLon cLat lon lat in
  2 * atan2 (sqrt (Rabs a)) (sqrt (1 - a)) = acos (dot (radians cLat) (radians cLon) (radians lat) (radians lon)).
Proof.
  cbv zeta. rewrite hav_eq. pose proof (dot_range (radians cLat) (radians cLon) (radians lat) (radians lon)) as D.
  set (d := dot _ _ _ _) in *. rewrite Rabs_right by lra.
  set (y := sqrt ((1 - d) / 2)). set (x := sqrt (1 - (1 - d) / 2)).
  assert (Y : y ^ 2 = (1 - d) / 2) by (unfold y; apply pow2_sqrt; lra).
  assert (X : x ^ 2 = 1 - (1 - d) / 2) by (unfold x; apply pow2_sqrt; lra).
  pose proof (atan2_spec y x) as [S C]. replace (y ^ 2 + x ^ 2) with 1 in S, C by lra. rewrite sqrt_1, Rmult_1_l in S, C.
  pose proof (atan2_quadrant y x (sqrt_pos _) (sqrt_pos _)) as Q.
  rewrite <- (acos_cos (2 * atan2 y x)) by lra. f_equal. rewrite cos_2a, S, C. nra.
Qed.
Lemma gridDist_distGC cLon cLat lon lat : gridDist cLon cLat lon lat = distGC cLat lat cLon lon.
Proof. unfold gridDist. cbv zeta. rewrite dist_angle. reflexivity. Qed.
Lemma dot_sym a b c d : dot a b c d = dot c d a b.
Proof. rewrite !dot_vdot. unfold vdot. ring. Qed.
Lemma distGC_sym a b c d : distGC a b c d = distGC b a d c.
Proof. rewrite !distGC_eq, dot_sym. reflexivity. Qed.
Lemma distGC_range a b c d : 0 <= distGC a b c d <= earth * PI.
Proof. rewrite distGC_eq. pose proof (acos_bound (dot (radians a) (radians c) (radians b) (radians d))). unfold earth. lra. Qed.
Lemma distGC_triangle a b c la lb lc : distGC a c la lc <= distGC a b la lb + distGC b c lb lc.
Proof.
  rewrite !distGC_eq, !dot_vdot.
  pose proof (angle_triangle (unitv (radians a) (radians la)) (unitv (radians b) (radians lb)) (unitv (radians c) (radians lc))
                (unit_1 _ _) (unit_1 _ _) (unit_1 _ _)). unfold earth. lra.
Qed.
(** zero exactly for the same point of the sphere *)
Lemma acos_0_iff x : -1 <= x <= 1 -> (acos x = 0 <-> x = 1).
Proof. intros H. split; [intros E; rewrite <- (cos_acos x H), E; apply cos_0 | intros ->; apply acos_1]. Qed.
Lemma distGC_zero a b la lb : distGC a b la lb = 0 <-> unitv (radians a) (radians la) = unitv (radians b) (radians lb).
Proof.
  rewrite distGC_eq. pose proof (dot_range (radians a) (radians la) (radians b) (radians lb)) as D.
  assert (Z : earth * acos (dot (radians a) (radians la) (radians b) (radians lb)) = 0 <->
              dot (radians a) (radians la) (radians b) (radians lb) = 1).
  { rewrite <- acos_0_iff by exact D. unfold earth. lra. }
  rewrite Z, dot_vdot. split; intros E.
  - pose proof (unit_1 (radians a) (radians la)) as U. pose proof (unit_1 (radians b) (radians lb)) as V.
    destruct (unitv (radians a) (radians la)) as [x1 x2 x3]. destruct (unitv (radians b) (radians lb)) as [y1 y2 y3].
    unfold vdot in *. cbn [v1 v2 v3] in *.
    assert (S : (x1 - y1)² + (x2 - y2)² + (x3 - y3)² = 0) by (unfold Rsqr; lra).
    pose proof (Rle_0_sqr (x1 - y1)). pose proof (Rle_0_sqr (x2 - y2)). pose proof (Rle_0_sqr (x3 - y3)).
    f_equal; apply Rminus_diag_uniq, Rsqr_0_uniq; lra.
  - rewrite E. apply unit_1.
Qed.

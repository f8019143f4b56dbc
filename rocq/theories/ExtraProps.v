(** Further theorems about properties stated elsewhere; each was added because a wrong version of a definition
    passed all the theorems there were (see seeded/LOG.jsonl). *)
From Coq Require Import List Arith ZArith QArith Bool Reals Lia Lra.
From Verif Require Import CircleModel CircleProofs WindModel SeriesModel KdeModel SphereModel SphereProofs BarrierModel CellModel GeomModel VmaxModel.
Import ListNotations.
Close Scope Q_scope.
Local Open Scope R_scope.

(** * C156: estimated winds *)
(** Two records of the same time count like a record that starts a cyclone, and a pressure change of more than 5 hPa
    per hour counts as no change. *)
Theorem c156_same_time : forall gf prev o, o_dt o = 0 ->
  windOf gf prev o =
  windOf gf prev {| o_new := true; o_dt := 0; o_dist := o_dist o; o_lat := o_lat o; o_p := o_p o; o_env := o_env o |}.
Proof.
  intros gf prev o D. unfold windOf, stormSpeed, fall. cbn [o_new o_dt o_dist o_lat o_p o_env]. rewrite D.
  destruct (Req_EM_T 0 0) as [_|N]; [|contradiction]. now destruct (o_new o).
Qed.
Print Assumptions c156_same_time.
Theorem c156_sudden : forall gf prev o, o_dt o <> 0 -> 5 < Rabs ((o_p o - prev) / o_dt o) ->
  windOf gf prev o = windOf gf (o_p o) o.
Proof.
  intros gf prev o D B. assert (F : fall prev o = fall (o_p o) o).
  { unfold fall. destruct (o_new o); [reflexivity|]. destruct (Req_EM_T _ _); [reflexivity|]. cbv zeta.
    rewrite (proj2 (rlt_true _ _) B). unfold Rminus. rewrite Rplus_opp_r. unfold Rdiv. rewrite Rmult_0_l.
    now destruct (rlt 5 (Rabs 0)). }
  unfold windOf. now rewrite F.
Qed.
Print Assumptions c156_sudden.
Example c156_sudden_example : let o := {| o_new := false; o_dt := 1; o_dist := 20; o_lat := -15; o_p := 950; o_env := Some 1010 |} in
  o_dt o <> 0 /\ 5 < Rabs ((o_p o - 980) / o_dt o).
Proof. cbn. split; [lra|]. rewrite Rabs_left; lra. Qed.

(** The density of the air at the radius of maximum winds is that of dry air of the same pressure and temperature
    less at most 4 per cent for the moisture. *)
Theorem c156_density : forall prmw lat, 800 <= prmw -> Rabs lat <= 90 ->
  let dry := prmw * 100 / ((28 - 3 * (Rabs lat - 10) / 20 + 27315 / 100) * (28704 / 100)) in
  96 / 100 * dry < density prmw lat < dry.
Proof.
  intros prmw lat P L. cbv zeta. pose proof (Rabs_pos lat) as A. unfold density.
  set (ts := 28 - 3 * (Rabs lat - 10) / 20). assert (T : 16 <= ts <= 295 / 10) by (unfold ts; lra).
  assert (X : 1767 / 100 * ts / (2435 / 10 + ts) < 2).
  { apply Rmult_lt_reg_r with (2435 / 10 + ts); [lra|]. unfold Rdiv at 1. rewrite Rmult_assoc, Rinv_l by lra. lra. }
  apply exp_increasing in X. pose proof (exp_pos (1767 / 100 * ts / (2435 / 10 + ts))) as E0.
  assert (E9 : exp 2 <= 9).
  { replace 2 with (1 + 1) by lra. rewrite exp_plus. pose proof exp_le_3. pose proof (exp_pos 1). apply Rle_trans with (3 * 3); [apply Rmult_le_compat; lra | lra]. }
  set (e := exp (1767 / 100 * ts / (2435 / 10 + ts))) in *.
  assert (I : 0 < / prmw <= / 800) by (split; [apply Rinv_0_lt_compat; lra | apply Rinv_le_contravar; lra]).
  set (q := 9 / 10 * (3802 / 1000 / prmw) * e).
  assert (Q : 0 < q < 4 / 100).
  { unfold q. replace (3802 / 1000 / prmw) with (3802 / 1000 * / prmw) by reflexivity. set (i := / prmw) in *. split; [apply Rmult_lt_0_compat; [lra | exact E0]|].
    apply Rle_lt_trans with (9 / 10 * (3802 / 1000 * / 800) * 9); [|lra].
    apply Rmult_le_compat; try lra. }
  clearbody q. clear X E0 E9 I. clearbody ts.
  assert (D : 0 < prmw * 100 / ((ts + 27315 / 100) * (28704 / 100))) by (apply Rdiv_lt_0_compat; Lra.nra).
  replace (prmw * 100 / ((ts + 27315 / 100) * (1 + 81 / 100 * q) * (28704 / 100)))
    with (prmw * 100 / ((ts + 27315 / 100) * (28704 / 100)) * / (1 + 81 / 100 * q)) by (field; split; lra).
  set (d := prmw * 100 / _) in *.
  assert (J : 96 / 100 < / (1 + 81 / 100 * q) < 1).
  { split; [|rewrite <- Rinv_1; apply Rinv_lt_contravar; lra].
    apply Rmult_lt_reg_r with (1 + 81 / 100 * q); [lra|]. rewrite Rinv_l by lra. lra. }
  split; Lra.nra.
Qed.
Print Assumptions c156_density.
Example c156_density_example : 800 <= 960 /\ Rabs (-15) <= 90.
Proof. rewrite Rabs_left; lra. Qed.

(** A dictionary of columns without dates is accepted exactly if month, day and hour are all there. *)
Theorem c156_date_columns : forall month day hour,
  parseDatesError Dictionary false month day hour = None <-> month = true /\ day = true /\ hour = true.
Proof. intros [] [] []; cbn; split; intros H; try discriminate; try (repeat split; reflexivity); destruct H as (? & ? & ?); discriminate. Qed.
Print Assumptions c156_date_columns.

(** * C150, C151: kernel density estimates *)
(** The bandwidth for 32 observations is 0.53 standard deviations; for the 32-fold number it is half of it. *)
Lemma fifth x : 0 < x -> Rpower (32 * x) (- 1 / 5) = / 2 * Rpower x (- 1 / 5).
Proof.
  intros H. rewrite <- Rpower_mult_distr by lra. f_equal. replace 32 with (Rpower 2 (INR 5)).
  - rewrite Rpower_mult. replace (INR 5 * (- 1 / 5)) with (Ropp 1) by (cbn; lra). rewrite Rpower_Ropp, Rpower_1; lra.
  - rewrite Rpower_pow by lra. lra.
Qed.
Theorem c150_bandwidth_32 : forall l, length l = 32%nat -> bandwidth l = 53 / 100 * sqrt (variance l).
Proof.
  intros l H. unfold bandwidth. rewrite H. replace (INR 32) with (32 * 1) by (cbn; lra). rewrite fifth by lra.
  rewrite <- (ln_exp 1) at 4 || idtac. unfold Rpower at 1. rewrite ln_1, Rmult_0_r, exp_0. lra.
Qed.
Print Assumptions c150_bandwidth_32.
Theorem c150_bandwidth_more : forall l m, l <> [] -> (length m = 32 * length l)%nat -> variance m = variance l ->
  2 * bandwidth m = bandwidth l.
Proof.
  intros l m N H V. unfold bandwidth. rewrite H, V, mult_INR. replace (INR 32) with 32 by (cbn; lra).
  rewrite fifth; [field|]. apply lt_0_INR. destruct l; [contradiction | cbn; lia].
Qed.
Print Assumptions c150_bandwidth_more.
Example c150_bandwidth_example : length (repeat 1 32) = 32%nat /\ [1] <> [] /\ (length (repeat 1 32) = 32 * length [1])%nat /\
  variance (repeat 1 32) = variance [1].
Proof. repeat split; try reflexivity; [discriminate|]. unfold variance, mean. cbn. lra. Qed.

(** The days of genesis: three times the mean of the scaled kernels at the single days, without the repeated data;
    the file named by the argument plays no part. *)
Theorem c151_genesis_value_refuted : forall K libbw h ps file day, 0 < h -> ps <> [] ->
  genesisDate K libbw (Some h) (Some ps) file day =
  Some (sumR (map (fun d => 3 * K ((d - day) / h)) ps) / (h * INR (length ps))).
Proof.
  intros K libbw h ps file day H N. unfold genesisDate, kdens. f_equal.
  assert (E : forall l, sumR (map (fun d => 3 * K ((d - day) / h)) l) = 3 * sumR (map (fun xi => K ((xi - day) / h)) l)).
  { induction l as [|x l IH]; [cbn; lra|]. cbn [map]. unfold sumR in *. cbn [fold_right]. rewrite IH. lra. }
  rewrite E. unfold Rdiv. lra.
Qed.
Print Assumptions c151_genesis_value_refuted.

(** * C100: distances *)
(** A quarter of the equator and of a meridian: a sphere of radius 6367 km. *)
Theorem c100_quarter : distGC 0 0 0 90 = 6367 * (PI / 2) /\ distGC 0 90 0 0 = 6367 * (PI / 2).
Proof.
  assert (R9 : radians 90 = PI / 2) by (unfold radians; lra). assert (R0 : radians 0 = 0) by (unfold radians; lra).
  unfold distGC. rewrite R9, R0, !sin_0, !cos_0, sin_PI2, cos_PI2. replace (cos (0 - PI / 2)) with 0.
  - unfold earth. split; f_equal; [replace (0 * 0 + 1 * 1 * 0) with 0 by lra | replace (0 * 1 + 1 * 0 * cos (0 - 0)) with 0 by lra]; apply acos_0.
  - replace (0 - PI / 2) with (- (PI / 2)) by lra. now rewrite cos_neg, cos_PI2.
Qed.
Print Assumptions c100_quarter.

(** * C54: pressures may be given in hPa or in Pa *)
Theorem c54_units : forall pC pE t beta rho v, 100 <= pC < 10000 -> 100 <= pE < 10000 ->
  vmax pC pE t beta rho = vmax (100 * pC) (100 * pE) t beta rho /\
  vmax pC pE t beta rho = vmax (100 * pC) pE t beta rho /\
  pDiff v pE t beta rho = pDiff v (100 * pE) t beta rho.
Proof.
  intros pC pE t beta rho v C E.
  assert (S : forall p, 100 <= p < 10000 -> toPa p = toPa (100 * p)).
  { intros p H. unfold toPa. rewrite (proj2 (rlt_true p 10000)) by lra. rewrite (proj2 (rlt_false (100 * p) 10000)) by lra. lra. }
  unfold vmax, pDiff. rewrite <- (S pC C), <- (S pE E). repeat split.
Qed.
Print Assumptions c54_units.
Example c54_units_example : 100 <= 950 < 10000 /\ 100 <= 1010 < 10000. Proof. lra. Qed.

(** * C44: the steps of a run *)
Local Open Scope nat_scope.
Definition times (w : op -> bool) (l : list op) : nat := length (filter w l).
(** Each of the five evaluations is run once by every process if evaluation is asked for, and nothing else is evaluated. *)
Theorem c44_evaluations_partial : forall a rank k,
  let isHist o := match o with Do (WEvalHist j) => j =? k | _ => false end in
  let isSyn o := match o with Do (WEvalSyn j) => j =? k | _ => false end in
  let isPlot o := match o with Do (WEvalPlot j) => j =? k | _ => false end in
  let n := if aEvaluate a && (k <? 5) then 1 else 0 in
  times isHist (mainProg a rank) = n /\ times isSyn (mainProg a rank) = n /\ times isPlot (mainProg a rank) = n.
Proof.
  intros a rank k. cbv zeta.
  assert (M : forall f, f Bar = false -> (forall w, match w with WEvalHist _ | WEvalSyn _ | WEvalPlot _ => True | _ => f (Do w) = false end) ->
                times f (mainProg a rank) = times f (when (aEvaluate a) evalRun)).
  { intros f B W. unfold times, mainProg. rewrite !filter_app, !app_length.
    assert (X : forall b l, (forall o, In o l -> f o = false) -> length (filter f (when b l)) = 0).
    { intros b l H. destruct b; [|reflexivity]. cbn [when]. induction l as [|o l IH]; [reflexivity|]. cbn.
      rewrite (H o) by now left. apply IH. intros o' I. apply H. now right. }
    assert (Y : forall w, match w with WEvalHist _ | WEvalSyn _ | WEvalPlot _ => False | _ => True end -> forall o, In o (master rank w) -> f o = false).
    { intros w H o I. unfold master in I. destruct (rank =? 0); cbn in I; [|contradiction]. destruct I as [<-|[]]. specialize (W w). destruct w; auto; contradiction. }
    pose proof (W WConfig) as WC. cbn in WC.
    assert (V : length (filter f (master rank WOutDirs)) = 0).
    { apply (X true). apply Y. exact I. }
    rewrite V, (X (aDownload a)), (X (aProcess a)), (X (aStat a)), (X (aTracks a)), (X (aWind a)), (X (aHazard a)), (X (aPlotData a)), (X (aDatabase a)), (X (aPlotHazard a));
      try (apply Y; exact I).
    - cbn [filter]. rewrite B, WC. cbn. lia.
    - intros o I. cbn in I. pose proof (W WDbSetup). pose proof (W WDbEvents). pose proof (W WDbHazard). pose proof (W WDbTracks). cbn in *. intuition (subst; auto).
    - intros o I. cbn in I. pose proof (W WHazardSetup). pose proof (W WHazard). pose proof (W WHazardSave). cbn in *. intuition (subst; auto).
    - intros o I. cbn in I. pose proof (W WWindSetup). pose proof (W WWinds). cbn in *. intuition (subst; auto).
    - intros o I. cbn in I. pose proof (W WTrackSetup). pose proof (W WTrackLoad). pose proof (W WTracks). cbn in *. intuition (subst; auto). }
  rewrite !M; try reflexivity; try (intros []; exact I || reflexivity).
  unfold when. destruct (aEvaluate a); [|repeat split; reflexivity].
  destruct k as [|[|[|[|[|k]]]]]; vm_compute; auto.
Qed.
Print Assumptions c44_evaluations_partial.

(** * C36, C37: lines and polygons *)
(** The status says only whether the polygon has an edge. *)
Theorem c36_status_refuted : forall a1 a2 parts,
  (fst (linePolygon a1 a2 parts) = NoIntersection <-> flat_map edges parts = []) /\
  (fst (linePolygon a1 a2 parts) = Intersects <-> flat_map edges parts <> []).
Proof.
  intros a1 a2 parts. unfold linePolygon. cbn [fst]. destruct (flat_map edges parts); cbn; split; split; intros H; try reflexivity; try discriminate; contradiction.
Qed.
Print Assumptions c36_status_refuted.
(** Above a square, outside it, the winding test reports inside too (with the number -1). *)
Theorem c37_above_refuted : forall x0 x1 y0 y1 p, (x0 < px p)%Q -> (px p < x1)%Q -> (y0 < y1)%Q -> (y1 < py p)%Q ->
  wnPnPoly p [{| px := x0; py := y0 |}; {| px := x1; py := y0 |}; {| px := x1; py := y1 |}; {| px := x0; py := y1 |};
              {| px := x0; py := y0 |}] = true.
Proof.
  intros x0 x1 y0 y1 p A B C D. unfold wnPnPoly, wnNumber. cbn [edges map fold_left wnEdge px py].
  assert (L : forall y z, (y < z)%Q -> Qle_bool y z = true) by (intros; apply Qle_bool_iff; Lqa.lra).
  assert (M : forall y z, (y < z)%Q -> qlt z y = false) by (intros; unfold qlt; rewrite (L y z); auto).
  rewrite !(L y0 (py p)), !(L y1 (py p)), !(M y0 (py p)), !(M y1 (py p)) by Lqa.lra.
  assert (Z : forall q, (0 <= q)%Q -> qlt q 0 = false) by (intros q H; unfold qlt; apply negb_false_iff; now apply Qle_bool_iff).
  assert (N : forall q, (q < 0)%Q -> qlt q 0 = true).
  { intros q H. unfold qlt. apply negb_true_iff. destruct (Qle_bool 0 q) eqn:E; [apply Qle_bool_iff in E; Lqa.lra | reflexivity]. }
  unfold isLeft. cbn [px py].
  rewrite (Z ((x1 - x0) * (py p - y0) - (px p - x0) * (y0 - y0))%Q) by Lqa.nra.
  rewrite (Z ((x1 - x1) * (py p - y0) - (px p - x1) * (y1 - y0))%Q) by Lqa.nra.
  rewrite (N ((x0 - x1) * (py p - y1) - (px p - x1) * (y1 - y1))%Q) by Lqa.nra.
  rewrite (Z ((x0 - x0) * (py p - y1) - (px p - x0) * (y0 - y1))%Q) by Lqa.nra.
  reflexivity.
Qed.
Print Assumptions c37_above_refuted.
Example c37_above_example : (0 < 1 # 2)%Q /\ ((1 # 2) < 1)%Q /\ (0 < 1)%Q /\ (1 < 2)%Q.
Proof. repeat split; reflexivity. Qed.

(** * C52, C91: pressure profiles *)
Local Open Scope R_scope.
(** The part of the deficit given to the outer profile of the double exponential profile grows with the deficit, by at
    most 0.54 Pa for each Pa: no jump where the formula changes. *)
Theorem c52_split : forall a b, 0 <= a -> a <= b -> 0 <= dp2of b - dp2of a <= 54 / 100 * (b - a).
Proof.
  assert (L : forall a b, 0 <= a -> a <= b -> b <= 1500 ->
    0 <= b / 1500 * (800 + (b - 800) / 2000) - a / 1500 * (800 + (a - 800) / 2000) <= 54 / 100 * (b - a)).
  { intros a b A B C. replace (b / 1500 * (800 + (b - 800) / 2000) - a / 1500 * (800 + (a - 800) / 2000))
      with ((b - a) * ((800 - 2 / 5 + (a + b) / 2000) / 1500)) by field. split; Lra.nra. }
  intros a b A B. unfold dp2of. destruct (rlt a 1500) eqn:E; destruct (rlt b 1500) eqn:F.
  - apply rlt_true in E, F. apply L; lra.
  - apply rlt_true in E. apply rlt_false in F. pose proof (L a 1500 A ltac:(lra) ltac:(lra)). lra.
  - apply rlt_true in F. apply rlt_false in E. lra.
  - lra.
Qed.
Print Assumptions c52_split.
Example c52_split_example : 0 <= 1400 /\ 1400 <= 1600 /\ dp2of 1600 - dp2of 1400 > 0.
Proof. split; [lra|]. split; [lra|]. unfold dp2of. rewrite (proj2 (rlt_true 1400 1500)), (proj2 (rlt_false 1600 1500)) by lra. lra. Qed.
(** The two Willoughby shape parameters differ by 0.2817 times the logarithm of the radius in km. *)
Theorem c91_gap_refuted : forall v lat rMaxKm, 0 < rMaxKm ->
  windWilloughbyBeta v (rMaxKm * 1000) lat - prsWilloughbyBeta v rMaxKm lat = 2817 / 10000 * ln rMaxKm.
Proof.
  intros v lat r H. unfold windWilloughbyBeta, prsWilloughbyBeta. replace (r * 1000 / 1000) with r by field. lra.
Qed.
Print Assumptions c91_gap_refuted.

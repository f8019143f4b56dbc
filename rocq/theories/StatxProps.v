(** Properties of further statistics: C190 and C191. *)
From Coq Require Import Reals List Arith ZArith QArith Qround Lia Lra Psatz.
From Verif Require Import CircleModel WindModel SeriesModel SeriesProofs SeriesProps CoefProps StatxModel.
Import ListNotations.
Local Open Scope R_scope.

(** ** C190 Circular statistics over a range, size distribution, genesis potential *)
Lemma angles_nil high low s : s <> [] -> angles high low s <> [].
Proof. destruct s; [congruence|discriminate]. Qed.
Theorem c190_mean_range : forall high low s, s <> [] -> low < high -> low <= circmeanIn high low s < high.
Proof.
  intros high low s N L. destruct (c120_mean _ (angles_nil high low s N)) as [R _]. pose proof PI_RGT_0 as P. unfold circmeanIn.
  set (m := circmean _) in *. replace (m * (high - low) / 2 / PI) with (m / (2 * PI) * (high - low)) by (field; lra).
  assert (0 <= m / (2 * PI) < 1).
  { split; [apply Rmult_le_pos; [lra|]; left; apply Rinv_0_lt_compat; lra|]. apply Rmult_lt_reg_r with (2 * PI); [lra|]. unfold Rdiv. rewrite Rmult_assoc, Rinv_l by lra. lra. }
  nra.
Qed.
(** The variance is the square of the standard deviation, at most the square of the length of the range over 2 pi, and zero
    exactly if any two samples differ by whole turns of the range *)
Theorem c190_variance : forall high low s, s <> [] -> low < high ->
  circvarIn high low s = circstdIn high low s ^ 2 /\ 0 <= circvarIn high low s <= ((high - low) / (2 * PI)) ^ 2 /\
  (circvarIn high low s = 0 <-> forall x y, In x s -> In y s -> cos ((x - y) * (2 * PI / (high - low))) = 1).
Proof.
  intros high low s N L. pose proof PI_RGT_0 as P. pose proof (angles_nil high low s N) as A. pose proof (modulus_range _ A) as M.
  unfold circvarIn, circstdIn. set (v := modulus _) in *.
  assert (K : 0 < (high - low) / 2 / PI). { unfold Rdiv. apply Rmult_lt_0_compat; [|now apply Rinv_0_lt_compat]. lra. }
  set (k := (high - low) / 2 / PI) in *. assert (S : sqrt (1 - v) ^ 2 = 1 - v) by (cbn [pow]; rewrite Rmult_1_r; apply sqrt_sqrt; lra).
  split; [rewrite Rpow_mult_distr, S; reflexivity|]. split.
  - replace ((high - low) / (2 * PI)) with k by (unfold k; field; lra). assert (0 < k ^ 2) by (apply pow_lt; exact K). nra.
  - destruct (c120_spread _ A) as [_ Z]. unfold circstd in Z. fold v in Z.
    assert (E : k ^ 2 * (1 - v) = 0 <-> sqrt (1 - v) = 0).
    { assert (0 < k ^ 2) by (apply pow_lt; exact K). split; intros H0.
      - apply Rmult_integral in H0 as [H0|H0]; [lra|]. rewrite H0. apply sqrt_0.
      - apply sqrt_eq_0 in H0; [|lra]. rewrite H0. ring. }
    rewrite E, Z. unfold angles. split; intros H x y X Y.
    + rewrite <- (H _ _ (in_map _ _ _ X) (in_map _ _ _ Y)). f_equal. field. lra.
    + apply in_map_iff in X as (x0 & <- & X). apply in_map_iff in Y as (y0 & <- & Y). rewrite <- (H _ _ X Y). f_equal. field. lra.
Qed.
(** Samples that are all the same have this as their mean *)
Theorem c190_constant : forall high low s a, s <> [] -> low <= a < high -> (forall x, In x s -> x = a) ->
  circmeanIn high low s = a /\ circvarIn high low s = 0 /\ circstdIn high low s = 0.
Proof.
  intros high low s a N A H. pose proof PI_RGT_0 as P.
  assert (F : 0 <= (a - low) * 2 * PI / (high - low) < 2 * PI).
  { replace ((a - low) * 2 * PI / (high - low)) with ((a - low) / (high - low) * (2 * PI)) by (field; lra).
    assert (0 <= (a - low) / (high - low) < 1).
    { split; [apply Rmult_le_pos; [lra|]; left; apply Rinv_0_lt_compat; lra|]. apply Rmult_lt_reg_r with (high - low); [lra|]. unfold Rdiv. rewrite Rmult_assoc, Rinv_l by lra. lra. }
    nra. }
  destruct (c120_constant (angles high low s) _ (angles_nil high low s N) F) as [M S].
  { intros x X. apply in_map_iff in X as (y & <- & Y). now rewrite (H y Y). }
  assert (Z : circstdIn high low s = 0) by (unfold circstdIn; unfold circstd in S; rewrite S; ring).
  split; [unfold circmeanIn; rewrite M; field; lra|]. split; [|exact Z].
  destruct (c190_variance high low s N) as [-> _]; [lra|]. rewrite Z. ring.
Qed.
(** Other units: scaling and moving the samples and the range scales and moves the mean and scales the deviation *)
Theorem c190_units : forall c d high low s, 0 < c -> low < high ->
  circmeanIn (c * high + d) (c * low + d) (map (fun x => c * x + d) s) = c * circmeanIn high low s + d /\
  circstdIn (c * high + d) (c * low + d) (map (fun x => c * x + d) s) = c * circstdIn high low s.
Proof.
  intros c d high low s C L. pose proof PI_RGT_0 as P.
  assert (E : angles (c * high + d) (c * low + d) (map (fun x => c * x + d) s) = angles high low s).
  { unfold angles. rewrite map_map. apply map_ext. intros x. field. split; [lra|]. replace (c * high + d - (c * low + d)) with (c * (high - low)) by ring. nra. }
  unfold circmeanIn, circstdIn. rewrite E. split; field; lra.
Qed.
(** With the default range the values are those of C120 *)
Theorem c190_default : forall s, circmeanIn (2 * PI) 0 s = circmean s /\ circstdIn (2 * PI) 0 s = circstd s.
Proof.
  intros s. pose proof PI_RGT_0 as P. assert (E : angles (2 * PI) 0 s = s).
  { unfold angles. rewrite <- (map_id s) at 2. apply map_ext. intros x. field. lra. }
  unfold circmeanIn, circstdIn, circstd. rewrite E. split; field; lra.
Qed.
Example c190_degrees : circmeanIn 360 0 [90; 90] = 90.
Proof. apply c190_constant; [discriminate|lra|]. intros x [<-|[<-|[]]]; reflexivity. Qed.

Lemma radii_len m : length (radii m) = Z.to_nat (Qceiling (m - 1)).
Proof. unfold radii. now rewrite map_length, seq_length. Qed.
Lemma radii_pos m x : In x (radii m) -> 1 <= x.
Proof. intros H. apply in_map_iff in H as (i & <- & _). rewrite S_INR. pose proof (pos_INR i). lra. Qed.
Lemma cumsumR_len l : forall a, length (cumsumR a l) = length l.
Proof. induction l; intros; [reflexivity|]. cbn. now rewrite IHl. Qed.
Lemma cumsumR_nth l : forall a i, (i < length l)%nat -> nth i (cumsumR a l) 0 = a + sumR (firstn (S i) l).
Proof.
  induction l as [|y l IH]; intros a i L; [cbn in L; lia|]. destruct i; [cbn; ring|]. cbn [cumsumR nth]. rewrite IH by (cbn in L; lia).
  cbn [firstn sumR fold_right]. fold (sumR (firstn (S i) l)). cbn [sumR firstn fold_right]. ring.
Qed.
Lemma last_nth_R (l : list R) : last l 0 = nth (length l - 1) l 0.
Proof. induction l as [|a l IH]; [reflexivity|]. destruct l as [|b l]; [reflexivity|]. change (last (a :: b :: l) 0) with (last (b :: l) 0). rewrite IH. cbn [length nth]. replace (S (S (length l)) - 1)%nat with (S (length l)) by lia. cbn [nth]. now replace (S (length l) - 1)%nat with (length l) by lia. Qed.
Lemma sum_pos l : l <> [] -> (forall a, In a l -> 0 < a) -> 0 < sumR l.
Proof.
  intros N H. destruct l as [|a l]; [congruence|]. clear N. revert a H. induction l as [|b l IH]; intros a H; cbn.
  - specialize (H a (or_introl eq_refl)). lra.
  - pose proof (H a (or_introl eq_refl)). specialize (IH b (fun x X => H x (or_intror X))). cbn in IH. lra.
Qed.
Lemma logPdf_pos mu sig x : 0 < sig -> 0 < x -> 0 < logPdf mu sig x.
Proof.
  intros S X. unfold logPdf. apply Rdiv_lt_0_compat; [apply exp_pos|]. apply Rmult_lt_0_compat; [now apply Rmult_lt_0_compat|].
  apply sqrt_lt_R0. pose proof PI_RGT_0. lra.
Qed.
(** The size distribution: radii 1, 2, ... below the largest, positive densities and a cumulative distribution that
    increases strictly to exactly 1 *)
Theorem c190_size : forall mean sig maxrad, 0 < mean -> 0 < sig -> (2 < maxrad)%Q ->
  exists x pdf cy, rMaxDist mean sig maxrad = Some (x, pdf, cy) /\ length pdf = length x /\ length cy = length x /\
    (forall i, (i < length x)%nat <-> (inject_Z (Z.of_nat i + 1) < maxrad)%Q) /\
    (forall i, (i < length x)%nat -> nth i x 0 = INR i + 1 /\ 0 < nth i pdf 0) /\
    (forall i, (i < length x)%nat -> nth i cy 0 = sumR (firstn (S i) pdf) / sumR pdf) /\
    (forall i j, (i < j < length x)%nat -> 0 < nth i cy 0 < nth j cy 0) /\ last cy 0 = 1.
Proof.
  intros mean sig maxrad M Sg Rd. unfold rMaxDist. set (mu := ln mean - _). set (x := radii maxrad). set (pdf := map (logPdf mu sig) x).
  assert (Lx : (2 <= length x)%nat).
  { unfold x. rewrite radii_len. assert (1 < Qceiling (maxrad - 1))%Z; [|lia].
    assert (G : (1 < inject_Z (Qceiling (maxrad - 1)))%Q) by (eapply Qlt_le_trans; [|apply Qle_ceiling]; Lqa.lra).
    change 1%Q with (inject_Z 1) in G. now rewrite <- Zlt_Qlt in G. }
  assert (Pp : forall a, In a pdf -> 0 < a). { intros a A. apply in_map_iff in A as (r & <- & I). apply logPdf_pos; [exact Sg|]. apply radii_pos in I. lra. }
  assert (Lp : length pdf = length x) by (unfold pdf; now rewrite map_length).
  assert (Np : pdf <> []) by (intros E; rewrite E in Lp; cbn in Lp; lia).
  assert (X2 : exists r, x = 1 :: 2 :: r).
  { unfold x in *. rewrite radii_len in Lx. unfold radii. destruct (Z.to_nat _) as [|[|n]]; [lia|lia|]. cbn [seq map]. eexists.
    replace (INR 1) with 1 by reflexivity. replace (INR 2) with 2 by (cbn; ring). reflexivity. }
  destruct X2 as [r X2]. set (cy := cumsumR 0 pdf). 
  assert (Lc : length cy = length x) by (unfold cy; rewrite cumsumR_len; exact Lp).
  assert (Lst : last cy 0 = sumR pdf).
  { rewrite last_nth_R. unfold cy. rewrite cumsumR_len, cumsumR_nth by lia. rewrite firstn_all2 by lia. ring. }
  assert (T : 0 < sumR pdf) by now apply sum_pos.
  assert (C : cdfR x pdf = Some (map (fun c => c / sumR pdf) cy)).
  { rewrite X2. cbn [cdfR]. rewrite Rabs_right by lra.
    assert (E : map (fun v => (2 - 1) * v) pdf = pdf) by (rewrite <- (map_id pdf) at 2; apply map_ext; intros; ring).
    rewrite E. fold cy. rewrite Lst. destruct (Req_EM_T (sumR pdf) 0); [lra|reflexivity]. }
  rewrite C. exists x, pdf, (map (fun c => c / sumR pdf) cy).
  assert (V : forall i, (i < length x)%nat -> nth i (map (fun c => c / sumR pdf) cy) 0 = sumR (firstn (S i) pdf) / sumR pdf).
  { intros i I. rewrite (nth_indep _ 0 (0 / sumR pdf)) by (rewrite map_length; lia). rewrite (map_nth (fun c => c / sumR pdf)). unfold cy.
    rewrite cumsumR_nth by lia. f_equal. ring. }
  split; [reflexivity|]. split; [exact Lp|]. split; [rewrite map_length; exact Lc|]. split; [|split; [|split; [exact V|split]]].
  - intros i. unfold x. rewrite radii_len. split.
    + intros I. assert (Z.of_nat i + 1 <= Qceiling (maxrad - 1))%Z by lia.
      apply Qnot_le_lt. intros G. assert (maxrad - 1 <= inject_Z (Z.of_nat i))%Q. { rewrite inject_Z_plus in G. change (inject_Z 1) with 1%Q in G. Lqa.lra. }
      apply Qceiling_resp_le in H0. rewrite Qceiling_Z in H0. lia.
    + intros G. assert (Z.of_nat i < Qceiling (maxrad - 1))%Z; [|lia]. rewrite Zlt_Qlt. eapply Qlt_le_trans; [|apply Qle_ceiling].
      rewrite inject_Z_plus in G. change (inject_Z 1) with 1%Q in G. Lqa.lra.
  - intros i I. split; [|apply Pp, nth_In; lia]. unfold x. unfold x in I. rewrite radii_len in I. unfold radii.
    rewrite (nth_indep _ 0 (INR 1)) by (rewrite map_length, seq_length; lia). rewrite (map_nth (fun i => INR (Datatypes.S i))), seq_nth by lia. apply S_INR.
  - intros i j I. rewrite !V by lia.
    assert (G : forall k, (k <= length pdf)%nat -> (0 < k)%nat -> 0 < sumR (firstn k pdf)).
    { intros k K K0. apply sum_pos; [destruct pdf; [congruence|]; destruct k; [lia|discriminate]|]. intros a A. apply Pp. rewrite <- (firstn_skipn k pdf). apply in_or_app. now left. }
    assert (D : sumR (firstn (Datatypes.S i) pdf) < sumR (firstn (Datatypes.S j) pdf)).
    { rewrite <- (firstn_skipn (Datatypes.S i) (firstn (Datatypes.S j) pdf)). rewrite firstn_firstn, Nat.min_l by lia. rewrite sumR_app.
      enough (0 < sumR (skipn (Datatypes.S i) (firstn (Datatypes.S j) pdf))) by lra. apply sum_pos.
      - intros E. apply (f_equal (@length R)) in E. rewrite skipn_length, firstn_length in E. cbn [length] in E. lia.
      - intros a A. apply Pp. rewrite <- (firstn_skipn (Datatypes.S j) pdf). apply in_or_app. left.
        rewrite <- (firstn_skipn (Datatypes.S i) (firstn (Datatypes.S j) pdf)). apply in_or_app. now right. }
    specialize (G (Datatypes.S i) ltac:(lia) ltac:(lia)). split; [now apply Rdiv_lt_0_compat|]. apply Rmult_lt_compat_r; [now apply Rinv_0_lt_compat|exact D].
  - rewrite last_nth_R, map_length, V by lia. rewrite firstn_all2 by lia. field. lra.
Qed.
(** The density rises up to the radius of its mode and falls from there; the parameters are those of a mean as given *)
Theorem c190_mode : forall mean sig x y, 0 < mean -> 0 < sig -> 0 < x < y ->
  let mu := ln mean - 1 / 2 * sig ^ 2 in
  (y <= exp (mu - sig ^ 2) -> logPdf mu sig x < logPdf mu sig y) /\ (exp (mu - sig ^ 2) <= x -> logPdf mu sig y < logPdf mu sig x) /\
  exp (mu + sig ^ 2 / 2) = mean.
Proof.
  intros mean sig x y M S X mu. assert (E : forall z, 0 < z -> logPdf mu sig z = exp (- ((ln z - mu) ^ 2) / (2 * sig ^ 2) - ln z) / (sig * sqrt (2 * PI))).
  { intros z Z. unfold logPdf. set (A := _ / (2 * sig ^ 2)). replace (A - ln z) with (A + - ln z) by ring. rewrite exp_plus, exp_Ropp, exp_ln by exact Z. pose proof PI_RGT_0.
    assert (0 < sqrt (2 * PI)) by (apply sqrt_lt_R0; lra). field. repeat split; lra. }
  assert (K : 0 < sig * sqrt (2 * PI)). { apply Rmult_lt_0_compat; [exact S|]. apply sqrt_lt_R0. pose proof PI_RGT_0. lra. }
  assert (D : ln y - ln x > 0). { pose proof (ln_increasing x y). lra. }
  assert (F : (- ((ln y - mu) ^ 2) / (2 * sig ^ 2) - ln y) - (- ((ln x - mu) ^ 2) / (2 * sig ^ 2) - ln x) =
    (ln y - ln x) * ((mu - sig ^ 2 - ln y) + (mu - sig ^ 2 - ln x)) / (2 * sig ^ 2)) by (field; lra).
  assert (S2 : 0 < / (2 * sig ^ 2)) by (apply Rinv_0_lt_compat; assert (0 < sig ^ 2) by (apply pow_lt; exact S); lra).
  assert (Ki : 0 < / (sig * sqrt (2 * PI))) by now apply Rinv_0_lt_compat.
  split; [|split].
  - intros B. rewrite !E by lra. apply Rmult_lt_compat_r; [exact Ki|]. apply exp_increasing.
    assert (L : ln y <= mu - sig ^ 2). { rewrite <- (ln_exp (mu - sig ^ 2)). destruct B as [B|B]; [left; apply ln_increasing; lra|rewrite B; right; reflexivity]. }
    assert (0 < (ln y - ln x) * (mu - sig ^ 2 - ln y + (mu - sig ^ 2 - ln x)) / (2 * sig ^ 2)); [|lra].
    apply Rmult_lt_0_compat; [apply Rmult_lt_0_compat; lra|exact S2].
  - intros B. rewrite !E by lra. apply Rmult_lt_compat_r; [exact Ki|]. apply exp_increasing.
    assert (L : mu - sig ^ 2 <= ln x). { rewrite <- (ln_exp (mu - sig ^ 2)). pose proof (exp_pos (mu - sig ^ 2)). destruct B as [B|B]; [left; apply ln_increasing; lra|rewrite B; right; reflexivity]. }
    assert (0 < (ln y - ln x) * - (mu - sig ^ 2 - ln y + (mu - sig ^ 2 - ln x)) / (2 * sig ^ 2)).
    { apply Rmult_lt_0_compat; [apply Rmult_lt_0_compat; lra|exact S2]. }
    unfold Rdiv in *. lra.
  - unfold mu. replace (ln mean - 1 / 2 * sig ^ 2 + sig ^ 2 / 2) with (ln mean) by field. now apply exp_ln.
Qed.
Example c190_size_met : 0 < 465 / 10 /\ 0 < 1 / 2 /\ (2 < 120)%Q.
Proof. repeat split; lra. Qed.
Lemma y32 a b : 0 <= a < b -> a * sqrt a < b * sqrt b.
Proof.
  intros H. assert (sqrt a < sqrt b) by (apply sqrt_lt_1; lra). pose proof (sqrt_pos a). nra.
Qed.
(** The genesis potential depends on the size of the vorticity only and grows with it, with humidity and with the potential
    intensity, and falls with shear; it is 1 for the reference values *)
Theorem c190_potential : forall z rh v s, 0 < rh -> 0 < v -> 0 <= s ->
  genesisPotential (- z) rh v s = genesisPotential z rh v s /\ genesisPotential 0 rh v s = 0 /\
  (forall z', Rabs z < Rabs z' -> genesisPotential z rh v s < genesisPotential z' rh v s) /\
  (z <> 0 -> (forall rh', rh < rh' -> genesisPotential z rh v s < genesisPotential z rh' v s) /\
    (forall v', v < v' -> genesisPotential z rh v s < genesisPotential z rh v' s) /\
    (forall s', s < s' -> genesisPotential z rh v s' < genesisPotential z rh v s)) /\
  genesisPotential (1 / 10 ^ 5) 50 70 0 = 1.
Proof.
  intros z rh v s H V S. assert (Cu : forall a b c, 0 < c -> 0 < a < b -> (a / c) ^ 3 < (b / c) ^ 3).
  { intros a b c C A. assert (0 < a / c) by (apply Rdiv_lt_0_compat; lra). assert (a / c < b / c) by (apply Rmult_lt_compat_r; [now apply Rinv_0_lt_compat|lra]).
    cbn [pow]. assert ((a / c) * (a / c) < (b / c) * (b / c)) by nra. nra. }
  assert (Ph : 0 < (rh / 50) ^ 3) by (apply pow_lt, Rdiv_lt_0_compat; lra). assert (Pv : 0 < (v / 70) ^ 3) by (apply pow_lt, Rdiv_lt_0_compat; lra).
  assert (Ps : 0 < / (1 + 1 / 10 * s) ^ 2) by (apply Rinv_0_lt_compat, pow_lt; lra).
  unfold genesisPotential, Rdiv at 1 3. split; [|split; [|split; [|split]]].
  - replace (10 ^ 5 * - z) with (- (10 ^ 5 * z)) by ring. now rewrite Rabs_Ropp.
  - rewrite Rmult_0_r, Rabs_R0. unfold Rdiv. ring.
  - intros z' Z. unfold Rdiv at 3. apply Rmult_lt_compat_r; [exact Ps|]. apply Rmult_lt_compat_r; [exact Pv|]. apply Rmult_lt_compat_r; [exact Ph|].
    apply y32. rewrite !Rabs_mult. pose proof (Rabs_pos z). rewrite (Rabs_right (10 ^ 5)) by lra. split; [nra|]. lra.
  - intros Z. assert (Y : 0 < Rabs (10 ^ 5 * z) * sqrt (Rabs (10 ^ 5 * z))).
    { assert (0 < Rabs (10 ^ 5 * z)) by (apply Rabs_pos_lt; apply Rmult_integral_contrapositive; split; [lra|exact Z]). apply Rmult_lt_0_compat; [assumption|]. now apply sqrt_lt_R0. }
    split; [|split].
    + intros rh' I. apply Rmult_lt_compat_r; [exact Ps|]. apply Rmult_lt_compat_r; [exact Pv|]. apply Rmult_lt_compat_l; [exact Y|]. apply Cu; lra.
    + intros v' I. apply Rmult_lt_compat_r; [exact Ps|]. apply Rmult_lt_compat_l; [now apply Rmult_lt_0_compat|]. apply Cu; lra.
    + intros s' I. apply Rmult_lt_compat_l; [apply Rmult_lt_0_compat; [apply Rmult_lt_0_compat|]; assumption|]. apply Rinv_lt_contravar; [apply Rmult_lt_0_compat; apply pow_lt; lra|]. nra.
  - replace (10 ^ 5 * (1 / 10 ^ 5)) with 1 by (field; lra). rewrite Rabs_R1, sqrt_1. field.
Qed.

(** ** C191 The circular standard deviation is that of the samples when they are close together *)
(** For two samples at a distance of [a] on both sides of their mean the standard deviation is [a]; the circular standard
    deviation is less than three quarters of it, however close they are *)
Theorem c191_spread_refuted : forall m a, 0 < a < PI / 2 ->
  circstd [m - a; m + a] = sqrt 2 * sin (a / 2) /\ circstd [m - a; m + a] < 3 / 4 * a.
Proof.
  intros m a A. assert (S0 : 0 < sin (a / 2)) by (apply sin_gt_0; lra).
  assert (E : circstd [m - a; m + a] = sqrt 2 * sin (a / 2)).
  { pose proof (modulus_rotate [- a; a] m) as Ro. cbn [map] in Ro. replace (- a + m) with (m - a) in Ro by ring. replace (a + m) with (m + a) in Ro by ring.
    unfold circstd. rewrite Ro. unfold modulus, resultant, mean. cbn [map sumR fold_right length fst snd INR]. rewrite cos_neg, sin_neg.
    replace (((cos a + (cos a + 0)) / (1 + 1)) ^ 2 + ((- sin a + (sin a + 0)) / (1 + 1)) ^ 2) with (Rsqr (cos a)) by (unfold Rsqr; field).
    rewrite sqrt_Rsqr by (left; apply cos_gt_0; lra).
    replace (1 - cos a) with (2 * Rsqr (sin (a / 2))).
    - rewrite sqrt_mult by (try lra; apply Rle_0_sqr). rewrite sqrt_Rsqr by lra. reflexivity.
    - replace a with (2 * (a / 2)) at 2 by field. rewrite cos_2a_sin. unfold Rsqr. ring. }
  split; [exact E|]. rewrite E. assert (L : sin (a / 2) < a / 2) by (apply sin_lt_x; lra).
  assert (sqrt 2 < 3 / 2). { replace (3 / 2) with (sqrt ((3 / 2) * (3 / 2))) by (apply sqrt_square; lra). apply sqrt_lt_1; lra. }
  pose proof (sqrt_pos 2). nra.
Qed.
Example c191_std : forall m a, 0 < a -> CoefModel.std [m - a; m + a] = a.
Proof.
  intros m a A. unfold CoefModel.std, mean. cbn [map sumR fold_right length INR].
  match goal with |- sqrt ?x = _ => replace x with (Rsqr a) by (unfold Rsqr; field) end. apply sqrt_Rsqr. lra.
Qed.
Print Assumptions c190_mean_range.
Print Assumptions c190_variance.
Print Assumptions c190_constant.
Print Assumptions c190_units.
Print Assumptions c190_default.
Print Assumptions c190_size.
Print Assumptions c190_mode.
Print Assumptions c190_potential.
Print Assumptions c191_spread_refuted.

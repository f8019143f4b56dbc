(** Properties of autoregression coefficients, the simulated noise and circular statistics *)
From Coq Require Import Reals List Arith Lra Lia Psatz Permutation.
From Verif Require Import CircleModel CircleProofs WindModel WindProofs5 SeriesModel SeriesProofs.
Import ListNotations.
Open Scope R_scope.

(** ** C118 Autoregression coefficients are usable: bounded, scale free and variance preserving *)
Theorem c118_bounded p : (exists a, In a p /\ a <> 0) ->
  - 1 <= alphaOf p <= 1 /\ 0 <= phiOf p <= 1 /\ alphaOf p ^ 2 + phiOf p ^ 2 = 1.
Proof.
  intros H. pose proof (sq_pos p H) as P.
  assert (N : p <> []) by (intros ->; destruct H as (? & [] & _)).
  assert (B : - 1 <= alphaOf p <= 1).
  { destruct (Nat.le_gt_cases 2 (length p)) as [L|L].
    - rewrite alpha_lag1 by exact L. pose proof (corr_bound p 1) as C.
      assert (D : - corr p 0 <= corr p 1 <= corr p 0) by (unfold Rabs in C; destruct (Rcase_abs _); lra).
      split; apply (Rmult_le_reg_r (corr p 0)); try exact P; unfold Rdiv; rewrite ?Rmult_assoc, ?Rinv_l by lra; lra.
    - assert (E : alphaOf p = corr p 0 / corr p 0).
      { destruct p as [|x [|y p]]; [congruence| |cbn in L; lia]. unfold alphaOf, acf. rewrite full_max by discriminate. reflexivity. }
      rewrite E. unfold Rdiv. rewrite Rinv_r by lra. lra. }
  assert (Q : 0 <= 1 - alphaOf p ^ 2) by nra.
  split; [exact B|]. unfold phiOf. split; [split; [apply sqrt_pos|]|].
  - rewrite <- sqrt_1 at 2. apply sqrt_le_1; nra.
  - rewrite pow2_sqrt by exact Q. ring.
Qed.
(** The entries are the autocorrelations at the lags 0 to [nlags], the first of them 1 *)
Theorem c118_lags p nlags : (exists a, In a p /\ a <> 0) -> (nlags < length p)%nat ->
  length (acf p nlags) = (nlags + 1)%nat /\ nth 0 (acf p nlags) 0 = 1 /\
  forall k, (k <= nlags)%nat -> nth k (acf p nlags) 0 * dotR p p = dotR p (skipn k p) /\ - 1 <= nth k (acf p nlags) 0 <= 1.
Proof.
  intros H L. pose proof (sq_pos p H) as P. assert (N : p <> []) by (intros ->; destruct H as (? & [] & _)).
  rewrite acf_lags by assumption. rewrite map_length, seq_length. split; [reflexivity|].
  assert (G : forall k, (k <= nlags)%nat -> nth k (map (fun k => corr p k / corr p 0) (seq 0 (nlags + 1))) 0 = corr p k / corr p 0).
  { intros k K. rewrite (nth_indep _ 0 ((fun k => corr p k / corr p 0) 0%nat)) by (rewrite map_length, seq_length; lia).
    rewrite (map_nth (fun k => corr p k / corr p 0)), seq_nth by lia. reflexivity. }
  split; [rewrite G by lia; unfold Rdiv; apply Rinv_r; lra|]. intros k K. rewrite G by exact K. split.
  - change (dotR p p) with (corr p 0). change (dotR p (skipn k p)) with (corr p k). unfold Rdiv. rewrite Rmult_assoc, Rinv_l by lra. ring.
  - pose proof (corr_bound p k) as C. assert (D : - corr p 0 <= corr p k <= corr p 0) by (unfold Rabs in C; destruct (Rcase_abs _); lra).
    split; apply (Rmult_le_reg_r (corr p 0)); try exact P; unfold Rdiv; rewrite ?Rmult_assoc, ?Rinv_l by lra; lra.
Qed.
(** Units of the observations do not matter *)
Theorem c118_scale p c : c <> 0 -> (2 <= length p)%nat -> (exists a, In a p /\ a <> 0) -> alphaOf (map (Rmult c) p) = alphaOf p /\ phiOf (map (Rmult c) p) = phiOf p.
Proof.
  intros C L H. pose proof (sq_pos p H) as P.
  assert (E : alphaOf (map (Rmult c) p) = alphaOf p).
  { rewrite !alpha_lag1 by (rewrite ?map_length; exact L). rewrite !corr_scale. field. split; [lra|exact C]. }
  split; [exact E|]. unfold phiOf. now rewrite E.
Qed.
(** On a finite probability space of outcomes (weight, anomaly, noise) a step keeps mean 0 and mean square 1
    when the noise has mean 0, mean square 1 and is uncorrelated with the anomaly *)
Definition expect (o : list (R * R * R)) (f : R -> R -> R) : R := sumR (map (fun '(w, x, e) => w * f x e) o).
Lemma expect_lin o f g h a b : (forall x e, f x e = a * g x e + b * h x e) -> expect o f = a * expect o g + b * expect o h.
Proof. intros H. unfold expect. apply sumR_map_lin. intros [[w x] e]. rewrite H. ring. Qed.
Theorem c118_stationary p o : (exists a, In a p /\ a <> 0) ->
  expect o (fun x _ => x) = 0 -> expect o (fun _ e => e) = 0 ->
  expect o (fun x _ => x * x) = 1 -> expect o (fun _ e => e * e) = 1 -> expect o (fun x e => x * e) = 0 ->
  expect o (fun x e => arStep (alphaOf p) (phiOf p) x e) = 0 /\
  expect o (fun x e => arStep (alphaOf p) (phiOf p) x e * arStep (alphaOf p) (phiOf p) x e) = 1.
Proof.
  intros H M1 M2 V1 V2 CV. destruct (c118_bounded p H) as (_ & _ & T). set (a := alphaOf p) in *. set (b := phiOf p) in *. clearbody a b. unfold arStep. split.
  - rewrite (expect_lin o _ (fun x _ => x) (fun _ e => e) a b) by (intros; ring). rewrite M1, M2. ring.
  - rewrite (expect_lin o _ (fun x _ => x * x) (fun x e => 2 * a * b * (x * e) + b * b * (e * e)) (a * a) 1) by (intros; ring).
    rewrite (expect_lin o (fun x e => 2 * a * b * (x * e) + b * b * (e * e)) (fun x e => x * e) (fun _ e => e * e) (2 * a * b) (b * b)) by (intros; ring).
    rewrite V1, V2, CV. lra.
Qed.
Example c118_example : alphaOf [1; -1; 1; -1] = - 3 / 4.
Proof. rewrite alpha_lag1 by (cbn; lia). unfold corr. cbn [skipn dotR]. field. Qed.
Example c118_stationary_example : let o := [(1/4, 1, 1); (1/4, 1, -1); (1/4, -1, 1); (1/4, -1, -1)] in
  expect o (fun x _ => x) = 0 /\ expect o (fun _ e => e) = 0 /\ expect o (fun x _ => x * x) = 1 /\ expect o (fun _ e => e * e) = 1 /\ expect o (fun x e => x * e) = 0.
Proof. unfold expect, sumR. cbn [map fold_right]. repeat split; lra. Qed.

(** ** C119 The coefficients and the noise do not describe standardised anomalies *)
(** The mean is not removed: a constant added to the observations changes even the sign of the coefficient *)
Theorem c119_offset_refuted : exists p c, (2 <= length p)%nat /\ alphaOf p < 0 /\ 0 < alphaOf (map (fun x => x + c) p).
Proof.
  exists [1; -1; 1; -1], 10. split; [cbn; lia|]. rewrite !alpha_lag1 by (cbn; lia). unfold corr. cbn [map skipn dotR]. split; lra.
Qed.
(** Observations that are all positive, as speeds and pressures are, never give a negative coefficient *)
Lemma dot_pos a b : (forall x, In x a -> 0 < x) -> (forall x, In x b -> 0 < x) -> a <> [] -> b <> [] -> 0 < dotR a b.
Proof.
  revert b. induction a as [|x a IH]; intros [|y b] A B Na Nb; try congruence. cbn [dotR].
  pose proof (A x (or_introl eq_refl)). pose proof (B y (or_introl eq_refl)).
  assert (0 < x * y) by (now apply Rmult_lt_0_compat).
  assert (0 <= dotR a b); [|lra]. destruct a as [|x' a]; [cbn [dotR]; lra|]. destruct b as [|y' b]; [cbn [dotR]; lra|].
  left. apply IH; try discriminate; intros z Hz; [apply A|apply B]; now right.
Qed.
Theorem c119_positive p : (2 <= length p)%nat -> (forall x, In x p -> 0 < x) -> 0 < alphaOf p.
Proof.
  intros L H. rewrite alpha_lag1 by exact L. unfold corr, Rdiv. destruct p as [|x [|y p]]; cbn [length] in L; try lia.
  apply Rmult_lt_0_compat; [|apply Rinv_0_lt_compat]; apply dot_pos; try discriminate; try exact H; cbn [skipn]; try discriminate.
  intros z Hz. apply H. now right.
Qed.
(** The noise of a step has a mean square above 1: a lower sum over a partition of the unit interval exceeds 1 *)
Fixpoint chain (a b : R) (parts : list (R * R)) : Prop := match parts with [] => a = b | (m, _) :: r => a < m /\ chain m b r end.
Fixpoint lowerSum (a : R) (parts : list (R * R)) : R := match parts with [] => 0 | (m, c) :: r => (m - a) * c + lowerSum m r end.
Fixpoint below (f : R -> R) (a : R) (parts : list (R * R)) : Prop :=
  match parts with [] => True | (m, c) :: r => (forall u, a < u < m -> c <= f u) /\ below f m r end.
Lemma ln3_ge : 1 <= ln 3.
Proof. rewrite <- (ln_exp 1). destruct exp_le_3 as [H|H]; [left; apply ln_increasing; [apply exp_pos|exact H]|rewrite H; right; reflexivity]. Qed.
Lemma ln9_ge : 2 <= ln 9.
Proof. replace 9 with (3 * 3) by ring. rewrite ln_mult by lra. pose proof ln3_ge. lra. Qed.
Lemma logistic_hi k u : 1 < k -> k / (k + 1) < u < 1 -> ln k <= logistic u.
Proof.
  intros K [A B]. unfold logistic. left. apply ln_increasing; [lra|].
  apply (Rmult_lt_reg_r (1 - u)); [lra|]. unfold Rdiv. rewrite Rmult_assoc, Rinv_l by lra.
  assert (k < u * (k + 1)). { apply (Rmult_lt_compat_r (k + 1)) in A; [|lra]. unfold Rdiv in A. rewrite Rmult_assoc, Rinv_l in A by lra. lra. }
  lra.
Qed.
Lemma logistic_sym u : 0 < u < 1 -> logistic (1 - u) = - logistic u.
Proof.
  intros H. unfold logistic. replace ((1 - u) / (1 - (1 - u))) with (/ (u / (1 - u))) by (field; lra).
  apply ln_Rinv. unfold Rdiv. apply Rmult_lt_0_compat; [lra|apply Rinv_0_lt_compat; lra].
Qed.
Lemma logistic_sq_lo k u : 1 < k -> 0 < u < 1 - k / (k + 1) -> ln k ^ 2 <= logistic u ^ 2.
Proof.
  intros K H. assert (0 < k / (k + 1)) by (unfold Rdiv; apply Rmult_lt_0_compat; [lra|apply Rinv_0_lt_compat; lra]).
  pose proof (logistic_hi k (1 - u) K ltac:(lra)) as L. rewrite logistic_sym in L by lra.
  assert (0 < ln k) by (rewrite <- ln_1; apply ln_increasing; lra).
  set (x := logistic u) in *. set (y := ln k) in *. clearbody x y. nra.
Qed.
Lemma logistic_sq_hi k u : 1 < k -> k / (k + 1) < u < 1 -> ln k ^ 2 <= logistic u ^ 2.
Proof.
  intros K H. pose proof (logistic_hi k u K H) as L.
  assert (0 < ln k) by (rewrite <- ln_1; apply ln_increasing; lra).
  set (x := logistic u) in *. set (y := ln k) in *. clearbody x y. nra.
Qed.
Theorem c119_noise_refuted : exists parts, chain 0 1 parts /\ below (fun u => logistic u ^ 2) 0 parts /\ 1 < lowerSum 0 parts.
Proof.
  exists [(1/10, ln 9 ^ 2); (1/4, ln 3 ^ 2); (3/4, 0); (9/10, ln 3 ^ 2); (1, ln 9 ^ 2)]. split; [|split].
  - cbn [chain]. repeat split; lra.
  - cbn [below]. repeat split.
    + intros u H. apply logistic_sq_lo; lra.
    + intros u H. apply logistic_sq_lo; lra.
    + intros u H. apply pow2_ge_0.
    + intros u H. apply logistic_sq_hi; lra.
    + intros u H. apply logistic_sq_hi; lra.
  - cbn [lowerSum]. pose proof ln3_ge. pose proof ln9_ge. assert (1 <= ln 3 ^ 2) by nra. assert (4 <= ln 9 ^ 2) by nra. lra.
Qed.
(** The bearing's coefficient is computed from degrees on a line: a sample around north loses its correlation *)
Theorem c119_bearing_refuted : exists p, let turned := map (fun x => if rlt (x + 180) 360 then x + 180 else x - 180) p in
  (forall x, In x p -> 0 <= x < 360) /\ (forall x, In x turned -> 0 <= x < 360) /\ alphaOf turned < alphaOf p / 10.
Proof.
  exists [179; 181; 179; 181; 179; 181; 179; 181]. cbv zeta.
  assert (E : map (fun x => if rlt (x + 180) 360 then x + 180 else x - 180) [179; 181; 179; 181; 179; 181; 179; 181] = [359; 1; 359; 1; 359; 1; 359; 1]).
  { cbn [map]. unfold rlt. destruct (Rlt_dec (179 + 180) 360); [|lra]. destruct (Rlt_dec (181 + 180) 360); [lra|]. repeat f_equal; lra. }
  rewrite E. split; [|split].
  - intros x H. cbn [In] in H. decompose [or] H; try contradiction; lra.
  - intros x H. cbn [In] in H. decompose [or] H; try contradiction; lra.
  - rewrite !alpha_lag1 by (cbn; lia). unfold corr. cbn [skipn dotR]. lra.
Qed.

(** ** C120 Circular mean and standard deviation *)
Theorem c120_mean s : s <> [] -> 0 <= circmean s < 2 * PI /\
  exists r, 0 <= r <= 1 /\ mean (map cos s) = r * cos (circmean s) /\ mean (map sin s) = r * sin (circmean s) /\ circstd s = sqrt (1 - r).
Proof.
  intros N. split.
  - unfold circmean. cbv zeta. pose proof (atan2_range (snd (resultant s)) (fst (resultant s))). pose proof PI_RGT_0.
    destruct (rlt (atan2 (snd (resultant s)) (fst (resultant s))) 0) eqn:E; [apply rlt_true in E|apply rlt_false in E]; lra.
  - exists (modulus (resultant s)). split; [apply modulus_range, N|]. destruct (circmean_dir s) as [C S]. split; [symmetry; exact C|]. split; [symmetry; exact S|reflexivity].
Qed.
(** Turning all samples turns the mean and keeps the spread *)
Theorem c120_turn s a : s <> [] -> circstd (map (fun x => x + a) s) = circstd s /\
  (mean (map cos s) <> 0 \/ mean (map sin s) <> 0 ->
   cos (circmean (map (fun x => x + a) s)) = cos (circmean s + a) /\ sin (circmean (map (fun x => x + a) s)) = sin (circmean s + a)).
Proof.
  intros N. split; [unfold circstd; now rewrite modulus_rotate|]. intros Z.
  assert (R0 : modulus (resultant s) <> 0).
  { intros E. destruct (circmean_dir s) as [C S]. rewrite E, Rmult_0_l in C, S. unfold resultant in C, S. cbn [fst snd] in C, S. destruct Z as [Z|Z]; apply Z; now symmetry. }
  destruct (circmean_dir (map (fun x => x + a) s)) as [C' S']. rewrite modulus_rotate, resultant_rotate in C', S'. cbn [fst snd] in C', S'.
  destruct (circmean_dir s) as [C S]. rewrite <- C, <- S in C', S'. rewrite cos_plus, sin_plus.
  split; apply (Rmult_eq_reg_l (modulus (resultant s))); try exact R0; [rewrite C'|rewrite S']; ring.
Qed.
Theorem c120_order s s' : Permutation s s' -> circmean s = circmean s' /\ circstd s = circstd s'.
Proof.
  intros P. assert (E : resultant s = resultant s').
  { unfold resultant, mean. rewrite !map_length, (Permutation_length P). f_equal; f_equal; apply sumR_perm, Permutation_map, P. }
  unfold circmean, circstd. rewrite E. auto.
Qed.
(** The spread is between 0 and 1 and zero only when all samples point the same way *)
Theorem c120_spread s : s <> [] -> 0 <= circstd s <= 1 /\
  (circstd s = 0 <-> forall x y, In x s -> In y s -> cos (x - y) = 1).
Proof.
  intros N. pose proof (modulus_range s N) as B. split.
  - unfold circstd. split; [apply sqrt_pos|]. rewrite <- sqrt_1 at 2. apply sqrt_le_1; lra.
  - assert (P : 0 < INR (length s)) by (apply lt_0_INR; destruct s; [congruence|cbn; lia]).
    split.
    + intros E. unfold circstd in E. apply sqrt_eq_0 in E; [|lra]. rewrite modulus_mean in E. unfold mean in E. rewrite map_length in E.
      assert (T : sumR (map (fun x => cos (x - circmean s)) s) = INR (length (map (fun x => cos (x - circmean s)) s)) * 1).
      { rewrite map_length. apply (Rmult_eq_reg_r (/ INR (length s))); [|apply Rinv_neq_0_compat; lra].
        replace (INR (length s) * 1 * / INR (length s)) with 1 by (field; lra). unfold Rdiv in E. lra. }
      assert (U : forall x, In x s -> cos (x - circmean s) = 1).
      { intros x Hx. apply (sumR_tight (map (fun x => cos (x - circmean s)) s) 1); [|exact T|apply in_map_iff; exists x; auto].
        intros c Hc. apply in_map_iff in Hc. destruct Hc as (z & <- & _). apply COS_bound. }
      intros x y Hx Hy. pose proof (U x Hx) as Ux. pose proof (U y Hy) as Uy.
      replace (x - y) with ((x - circmean s) - (y - circmean s)) by ring. rewrite cos_minus, Ux, Uy.
      pose proof (sin2_cos2 (x - circmean s)) as T1. pose proof (sin2_cos2 (y - circmean s)) as T2. unfold Rsqr in T1, T2. rewrite Ux in T1. rewrite Uy in T2.
      assert (sin (x - circmean s) = 0) by nra. rewrite H. ring.
    + intros H. destruct s as [|y s]; [congruence|].
      assert (F : forall x, In x (y :: s) -> cos x = cos y /\ sin x = sin y).
      { intros x Hx. pose proof (H x y Hx (or_introl eq_refl)) as E. rewrite cos_minus in E.
        pose proof (sin2_cos2 x) as T1. pose proof (sin2_cos2 y) as T2. unfold Rsqr in T1, T2.
        assert (Z : (cos x - cos y) * (cos x - cos y) + (sin x - sin y) * (sin x - sin y) = 0) by (ring_simplify; lra).
        pose proof (Rle_0_sqr (cos x - cos y)) as P1. pose proof (Rle_0_sqr (sin x - sin y)) as P2. unfold Rsqr in P1, P2.
        split; apply Rminus_diag_uniq; apply Rsqr_0_uniq; unfold Rsqr; lra. }
      assert (G : forall f, (forall x, In x (y :: s) -> f x = f y) -> mean (map f (y :: s)) = f y).
      { intros f Hf. unfold mean. rewrite map_length. apply (Rmult_eq_reg_r (INR (length (y :: s)))); [|lra].
        unfold Rdiv. rewrite Rmult_assoc, Rinv_l, Rmult_1_r by lra. clear - Hf. revert Hf. generalize (y :: s) as l. intros l.
        induction l as [|b l IH]; intros Hf; [cbn; ring|]. cbn [map]. unfold sumR. cbn [fold_right]. fold (sumR (map f l)). rewrite IH by (intros x Hx; apply Hf; now right).
        rewrite (Hf b) by now left. change (length (b :: l)) with (S (length l)). rewrite S_INR. ring. }
      unfold circstd, modulus, resultant. cbn [fst snd]. rewrite (G cos), (G sin) by (intros x Hx; apply F, Hx).
      pose proof (sin2_cos2 y) as T. unfold Rsqr in T. replace (cos y ^ 2 + sin y ^ 2) with 1 by (rewrite <- T; ring). rewrite sqrt_1, Rminus_diag_eq by reflexivity. apply sqrt_0.
Qed.
(** Two angles of one turn with the same cosine and sine are equal *)
Lemma angle_unique a b : 0 <= a < 2 * PI -> 0 <= b < 2 * PI -> cos a = cos b -> sin a = sin b -> a = b.
Proof.
  intros A B C S. assert (E : cos (a - b) = 1).
  { rewrite cos_minus, C, S. pose proof (sin2_cos2 b) as T. unfold Rsqr in T. lra. }
  replace (a - b) with (2 * ((a - b) / 2)) in E by field. rewrite cos_2a_sin in E.
  assert (Z : sin ((a - b) / 2) = 0) by nra.
  destruct (Rtotal_order ((a - b) / 2) 0) as [L|[L|L]]; [|lra|].
  - pose proof (sin_gt_0 (- ((a - b) / 2)) ltac:(lra) ltac:(lra)) as G. rewrite sin_neg in G. lra.
  - pose proof (sin_gt_0 ((a - b) / 2) ltac:(lra) ltac:(lra)). lra.
Qed.
(** Samples that point the same way are their own mean *)
Theorem c120_constant s a : s <> [] -> 0 <= a < 2 * PI -> (forall x, In x s -> x = a) -> circmean s = a /\ circstd s = 0.
Proof.
  intros N A H. assert (Z : circstd s = 0).
  { apply (c120_spread s N). intros x y Hx Hy. rewrite (H x Hx), (H y Hy), Rminus_diag_eq by reflexivity. apply cos_0. }
  split; [|exact Z]. destruct (c120_mean s N) as (B & r & R & C & S & D).
  rewrite Z in D. symmetry in D. apply sqrt_eq_0 in D; [|lra]. assert (r = 1) by lra. subst r.
  assert (G : forall f, mean (map f s) = f a).
  { intros f. assert (P : 0 < INR (length s)) by (apply lt_0_INR; destruct s; [congruence|cbn; lia]).
    unfold mean. rewrite map_length. apply (Rmult_eq_reg_r (INR (length s))); [|lra].
    unfold Rdiv. rewrite Rmult_assoc, Rinv_l, Rmult_1_r by lra. clear - H. induction s as [|b s IH]; [cbn; ring|].
    cbn [map]. unfold sumR. cbn [fold_right]. fold (sumR (map f s)). rewrite IH by (intros x Hx; apply H; now right).
    rewrite (H b) by now left. change (length (a :: s)) with (S (length s)). rewrite S_INR. ring. }
  rewrite (G cos) in C. rewrite (G sin) in S. apply angle_unique; try assumption; lra.
Qed.
(** The mean is the only angle of one turn in the direction of the summed unit vectors *)
Theorem c120_unique s m r : s <> [] -> 0 <= m < 2 * PI -> 0 < r -> mean (map cos s) = r * cos m -> mean (map sin s) = r * sin m -> circmean s = m.
Proof.
  intros N M R C S. destruct (c120_mean s N) as (B & q & Q & C' & S' & _). rewrite C in C'. rewrite S in S'.
  assert (G : forall k t, k * k = (k * cos t) * (k * cos t) + (k * sin t) * (k * sin t)).
  { intros k t. pose proof (sin2_cos2 t) as T. unfold Rsqr in T.
    replace ((k * cos t) * (k * cos t) + (k * sin t) * (k * sin t)) with (k * k * (sin t * sin t + cos t * cos t)) by ring. rewrite T. ring. }
  assert (E : r = q). { apply Rsqr_inj; [lra|lra|]. unfold Rsqr. rewrite (G r m), (G q (circmean s)), C', S'. reflexivity. }
  subst q. apply angle_unique; try assumption; apply (Rmult_eq_reg_l r); lra.
Qed.
Example c120_example : [PI / 2; PI / 2] <> [] /\ 0 <= PI / 2 < 2 * PI /\ circmean [PI / 2; PI / 2] = PI / 2.
Proof.
  pose proof PI_RGT_0. split; [discriminate|]. split; [lra|]. apply c120_constant; [discriminate|lra|]. intros x [<-|[<-|[]]]; reflexivity.
Qed.
Print Assumptions c118_bounded.
Print Assumptions c118_lags.
Print Assumptions c118_scale.
Print Assumptions c118_stationary.
Print Assumptions c119_offset_refuted.
Print Assumptions c119_positive.
Print Assumptions c119_noise_refuted.
Print Assumptions c119_bearing_refuted.
Print Assumptions c120_mean.
Print Assumptions c120_turn.
Print Assumptions c120_order.
Print Assumptions c120_spread.
Print Assumptions c120_constant.
Print Assumptions c120_unique.

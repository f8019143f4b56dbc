(** Lemmas about autocorrelation and circular statistics *)
From Coq Require Import Reals List Arith Lra Lia Psatz Permutation.
From Verif Require Import CircleModel CircleProofs WindModel WindProofs5 SeriesModel.
Import ListNotations.
Open Scope R_scope.

Definition sq (p : list R) : R := dotR p p.
Lemma sq_nonneg p : 0 <= sq p.
Proof. unfold sq. induction p as [|a p IH]; cbn [dotR]; [lra|nra]. Qed.
Lemma sq_skipn k p : sq (skipn k p) <= sq p.
Proof.
  revert p. induction k as [|k IH]; intros p; [cbn [skipn]; lra|]. destruct p as [|a p]; [cbn [skipn]; lra|]. cbn [skipn].
  eapply Rle_trans; [apply IH|]. unfold sq. cbn [dotR]. nra.
Qed.
Lemma dot_bound a b : 2 * Rabs (dotR a b) <= sq a + sq b.
Proof.
  assert (H : forall a b, 2 * dotR a b <= sq a + sq b /\ - (2 * dotR a b) <= sq a + sq b).
  { clear. induction a as [|x a IH]; intros [|y b]; unfold sq in *; cbn [dotR].
    - lra.
    - pose proof (sq_nonneg b) as P. unfold sq in P. split; nra.
    - pose proof (sq_nonneg a) as P. unfold sq in P. split; nra.
    - destruct (IH b) as [A B]. pose proof (Rle_0_sqr (x - y)) as P. pose proof (Rle_0_sqr (x + y)) as Q. unfold Rsqr in P, Q. split; lra. }
  destruct (H a b). unfold Rabs. destruct (Rcase_abs _); lra.
Qed.
Lemma corr_bound p k : Rabs (corr p k) <= corr p 0.
Proof.
  unfold corr. cbn [skipn]. pose proof (dot_bound p (skipn k p)). pose proof (sq_skipn k p). unfold sq in *. lra.
Qed.
Lemma sq_pos p : (exists a, In a p /\ a <> 0) -> 0 < corr p 0.
Proof.
  intros (a & H & N). unfold corr. cbn [skipn]. induction p as [|b p IH]; [destruct H|]. cbn [dotR].
  pose proof (sq_nonneg p) as P. unfold sq in P. destruct H as [->|H].
  - assert (0 < a * a) by nra. lra.
  - specialize (IH H). nra.
Qed.
Lemma maxR_spec l : l <> [] -> In (maxR l) l /\ forall a, In a l -> a <= maxR l.
Proof.
  destruct l as [|b l]; [congruence|]. intros _. cbn [maxR].
  assert (G : forall l, (fold_right Rmax b l = b \/ In (fold_right Rmax b l) l) /\ b <= fold_right Rmax b l /\ forall a, In a l -> a <= fold_right Rmax b l).
  { clear. induction l as [|c l (A & B & C)]; cbn [fold_right].
    - split; [now left|]. split; [lra|intros a []].
    - split; [|split].
      + unfold Rmax at 1 3. destruct (Rle_dec c _); [destruct A as [A|A]; [left; exact A|right; right; exact A]|right; now left].
      + eapply Rle_trans; [exact B|apply Rmax_r].
      + intros a [->|H]; [apply Rmax_l|]. eapply Rle_trans; [apply C, H|apply Rmax_r]. }
  destruct (G l) as (A & B & C). split; [destruct A as [->|A]; [now left|now right]|]. intros a [->|H]; auto.
Qed.
Lemma full_in p a : In a (full p) -> exists k, a = corr p k.
Proof. unfold full. intros H. apply in_app_iff in H. destruct H as [H|H]; apply in_map_iff in H; destruct H as (k & <- & _); eauto. Qed.
Lemma full_max p : p <> [] -> maxR (full p) = corr p 0.
Proof.
  intros N. assert (I : In (corr p 0) (full p)).
  { unfold full. apply in_app_iff. right. apply in_map_iff. exists 0%nat. split; [reflexivity|]. apply in_seq. destruct p; [congruence|cbn; lia]. }
  destruct (maxR_spec (full p)) as [A B]; [intros E; rewrite E in I; destruct I|].
  apply Rle_antisym; [|apply B, I]. destruct (full_in _ _ A) as (k & ->).
  eapply Rle_trans; [apply Rle_abs|apply corr_bound].
Qed.
(** The entries of [acf] are the lags from 0 on *)
Lemma acf_lags p nlags : p <> [] -> (nlags < length p)%nat ->
  acf p nlags = map (fun k => corr p k / corr p 0) (seq 0 (nlags + 1)).
Proof.
  intros N H. unfold acf. rewrite full_max by exact N. unfold full.
  rewrite skipn_app, map_length, seq_length. rewrite skipn_all2 by (rewrite map_length, seq_length; lia).
  rewrite Nat.sub_diag. cbn [skipn app]. rewrite firstn_map, map_map. f_equal.
  replace (length p) with ((nlags + 1) + (length p - (nlags + 1)))%nat by lia. rewrite seq_app, firstn_app, seq_length, Nat.sub_diag. cbn [firstn].
  rewrite app_nil_r. apply firstn_all2. rewrite seq_length. lia.
Qed.
Lemma alpha_lag1 p : (2 <= length p)%nat -> alphaOf p = corr p 1 / corr p 0.
Proof.
  intros H. unfold alphaOf. rewrite acf_lags by (try lia; intros ->; cbn in H; lia). reflexivity.
Qed.
Lemma dot_scale c a b : dotR (map (Rmult c) a) (map (Rmult c) b) = c * c * dotR a b.
Proof. revert b. induction a as [|x a IH]; intros [|y b]; cbn; try ring. rewrite IH. ring. Qed.
Lemma corr_scale c p k : corr (map (Rmult c) p) k = c * c * corr p k.
Proof. unfold corr. rewrite skipn_map. apply dot_scale. Qed.

(** ** Circular statistics *)
Lemma sumR_app a b : sumR (a ++ b) = sumR a + sumR b.
Proof. unfold sumR. induction a as [|x a IH]; cbn [app fold_right]; [ring|]. rewrite IH. ring. Qed.
Lemma sumR_map_lin {A} (f g h : A -> R) x y l : (forall a, f a = x * g a + y * h a) -> sumR (map f l) = x * sumR (map g l) + y * sumR (map h l).
Proof. intros H. unfold sumR. induction l as [|a l IH]; cbn [map fold_right]; [ring|]. rewrite IH, H. ring. Qed.
Lemma resultant_rotate s a : resultant (map (fun x => x + a) s) =
  (cos a * fst (resultant s) - sin a * snd (resultant s), sin a * fst (resultant s) + cos a * snd (resultant s)).
Proof.
  unfold resultant, mean. cbn [fst snd]. rewrite !map_map, !map_length. f_equal.
  - rewrite (sumR_map_lin (fun x => cos (x + a)) cos sin (cos a) (- sin a)); [unfold Rdiv; ring|]. intros x. rewrite cos_plus. ring.
  - rewrite (sumR_map_lin (fun x => sin (x + a)) cos sin (sin a) (cos a)); [unfold Rdiv; ring|]. intros x. rewrite sin_plus. ring.
Qed.
Lemma modulus_rotate s a : modulus (resultant (map (fun x => x + a) s)) = modulus (resultant s).
Proof.
  rewrite resultant_rotate. unfold modulus. cbn [fst snd]. f_equal. pose proof (sin2_cos2 a) as T. unfold Rsqr in T.
  set (c := cos a) in *. set (d := sin a) in *. set (u := fst (resultant s)). set (v := snd (resultant s)). clearbody c d u v.
  replace ((c * u - d * v) ^ 2 + (d * u + c * v) ^ 2) with ((d * d + c * c) * (u ^ 2 + v ^ 2)) by ring. rewrite T. ring.
Qed.
Lemma atan2_range y x : - PI <= atan2 y x <= PI.
Proof.
  unfold atan2. pose proof PI_RGT_0. pose proof (atan_bound (y / x)) as B.
  destruct (rlt 0 x) eqn:E1; [lra|]. apply rlt_false in E1.
  destruct (rlt x 0) eqn:E2.
  - apply rlt_true in E2. destruct (rlt y 0) eqn:E3.
    + apply rlt_true in E3. assert (0 < y / x) by (unfold Rdiv; assert (/ x < 0) by (now apply Rinv_lt_0_compat); nra).
      pose proof (atan_increasing 0 (y / x) ltac:(lra)) as A. rewrite atan_0 in A. lra.
    + apply rlt_false in E3. assert (y / x <= 0) by (unfold Rdiv; assert (/ x < 0) by (now apply Rinv_lt_0_compat); nra).
      assert (atan (y / x) <= 0). { destruct H0 as [H0|H0]; [|rewrite H0, atan_0; lra]. pose proof (atan_increasing (y / x) 0 H0) as A. rewrite atan_0 in A. lra. }
      lra.
  - destruct (rlt 0 y); [lra|]. destruct (rlt y 0); lra.
Qed.
Lemma circmean_dir s : modulus (resultant s) * cos (circmean s) = fst (resultant s) /\
  modulus (resultant s) * sin (circmean s) = snd (resultant s).
Proof.
  pose proof (atan2_spec (snd (resultant s)) (fst (resultant s))) as [S C]. rewrite (Rplus_comm (snd _ ^ 2)) in S, C. fold (modulus (resultant s)) in S, C.
  unfold circmean. cbv zeta. destruct (rlt (atan2 (snd (resultant s)) (fst (resultant s))) 0); [|auto].
  rewrite cos_plus, sin_plus, cos_2PI, sin_2PI, !Rmult_1_r, !Rmult_0_r, Rplus_0_r, Rminus_0_r. auto.
Qed.
(** The mean resultant length is the mean of the cosines of the deviations *)
Lemma modulus_mean s : modulus (resultant s) = mean (map (fun x => cos (x - circmean s)) s).
Proof.
  destruct (circmean_dir s) as [C S]. set (m := circmean s) in *. clearbody m.
  assert (E : mean (map (fun x => cos (x - m)) s) = cos m * fst (resultant s) + sin m * snd (resultant s)).
  { unfold mean, resultant. rewrite map_length. cbn [fst snd]. unfold mean. rewrite !map_length.
    rewrite (sumR_map_lin _ cos sin (cos m) (sin m)); [unfold Rdiv; ring|]. intros x. rewrite cos_minus. ring. }
  rewrite E, <- C, <- S. pose proof (sin2_cos2 m) as T. unfold Rsqr in T. set (r := modulus (resultant s)). clearbody r.
  replace (cos m * (r * cos m) + sin m * (r * sin m)) with ((sin m * sin m + cos m * cos m) * r) by ring. rewrite T. ring.
Qed.
Lemma sumR_le l c : (forall a, In a l -> a <= c) -> sumR l <= INR (length l) * c.
Proof.
  induction l as [|a l IH]; intros H; [cbn; lra|]. change (length (a :: l)) with (S (length l)). rewrite S_INR. unfold sumR. cbn [fold_right].
  fold (sumR l). specialize (IH ltac:(intros b Hb; apply H; now right)). pose proof (H a (or_introl eq_refl)). lra.
Qed.
Lemma sumR_tight l c : (forall a, In a l -> a <= c) -> sumR l = INR (length l) * c -> forall a, In a l -> a = c.
Proof.
  induction l as [|b l IH]; intros H E a Ha; [destruct Ha|].
  change (length (b :: l)) with (S (length l)) in E. rewrite S_INR in E. unfold sumR in E. cbn [fold_right] in E. fold (sumR l) in E.
  pose proof (sumR_le l c ltac:(intros x Hx; apply H; now right)). pose proof (H b (or_introl eq_refl)).
  destruct Ha as [->|Ha]; [lra|]. apply IH; [intros x Hx; apply H; now right|lra|exact Ha].
Qed.
Lemma modulus_range s : s <> [] -> 0 <= modulus (resultant s) <= 1.
Proof.
  intros N. split; [apply sqrt_pos|]. rewrite modulus_mean. unfold mean. rewrite map_length.
  assert (0 < INR (length s)) by (apply lt_0_INR; destruct s; [congruence|cbn; lia]).
  pose proof (sumR_le (map (fun x => cos (x - circmean s)) s) 1) as B. rewrite map_length in B.
  assert (sumR (map (fun x => cos (x - circmean s)) s) <= INR (length s) * 1).
  { apply B. intros a Ha. apply in_map_iff in Ha. destruct Ha as (x & <- & _). apply COS_bound. }
  apply (Rmult_le_reg_r (INR (length s))); [assumption|]. unfold Rdiv. rewrite Rmult_assoc, Rinv_l by lra. lra.
Qed.
Lemma sumR_perm l l' : Permutation l l' -> sumR l = sumR l'.
Proof. unfold sumR. induction 1; cbn [fold_right]; lra. Qed.

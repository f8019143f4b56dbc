(** C50, C51, C59, C89: return levels and extreme value fits. *)
From Coq Require Import List Arith ZArith Lia Bool QArith Qabs Qround Lqa Permutation Reals.
From Verif Require Import CellModel SampModel NumModel LmomModel FitModel FitProofs FitProofs2 FitRModel FitRProofs NewtonProofs.
Import ListNotations.

(** * C50 *)
Section RealLevels.
Open Scope R_scope.
Theorem c50_gev : forall loc scale shp y t t', 0 < shp -> 0 < scale -> 0 < y -> y < t -> t <= t' ->
  gevLevel loc scale shp y t <= gevLevel loc scale shp y t'.
Proof. exact gev_mono. Qed.
Theorem c50_gpd : forall mu shape scale rate npyr t t', shape <> 0 -> 0 < scale -> 0 < rate -> 0 < npyr ->
  0 < t -> t <= t' ->
  gpdReturnLevel t mu shape scale rate npyr <= gpdReturnLevel t' mu shape scale rate npyr.
Proof. exact gpd_mono. Qed.
Theorem c50_inverse : forall mu shape scale rate npyr, shape <> 0 -> 0 < scale -> 0 < rate -> 0 < npyr ->
  (forall t, 0 < t -> gpdRecurrence (gpdReturnLevel t mu shape scale rate npyr) mu shape scale rate npyr = t) /\
  (forall v, 0 < (v - mu) * (shape / scale) + 1 ->
     gpdReturnLevel (gpdRecurrence v mu shape scale rate npyr) mu shape scale rate npyr = v).
Proof. intros mu shape scale rate npyr H1 H2 H3 H4. split; intros; [now apply gpd_inverse|now apply gpd_inverse']. Qed.
Example c50_example_r : gevLevel 30 5 (1/10) 1 2 <= gevLevel 30 5 (1/10) 1 100 /\
  gpdRecurrence (gpdReturnLevel 100 30 (-1/10) 5 (1/1000) 365) 30 (-1/10) 5 (1/1000) 365 = 100.
Proof. split; [apply c50_gev|apply c50_inverse]; Lra.lra. Qed.
End RealLevels.
Print Assumptions c50_gev.
Print Assumptions c50_gpd.
Print Assumptions c50_inverse.

(** * C128: a shape of zero, which the fits can return (evd.py:517-521 refuses only positive shapes), makes the level not a
    number although the levels converge to those of the exponential distribution *)
Section ZeroShape.
Open Scope R_scope.
Theorem c128_zero_shape_refuted : forall mu scale rate npyr t, 0 < scale -> 0 < rate -> 0 < npyr -> 0 < t ->
  gpdLevelF t mu 0 scale rate npyr = None /\
  (forall eps, 0 < eps -> exists d, 0 < d /\ forall shape, 0 < Rabs shape < d ->
     exists v, gpdLevelF t mu shape scale rate npyr = Some v /\ Rabs (v - (mu + scale * ln (t * npyr * rate))) < eps).
Proof. exact gpd_zero. Qed.
Example c128_example : gpdLevelF 100 30 0 5 (1/1000) 365 = None.
Proof. apply c128_zero_shape_refuted; Lra.lra. Qed.
End ZeroShape.
Print Assumptions c128_zero_shape_refuted.

Open Scope Q_scope.
(** The empirical curve: non-negative, non-decreasing, and the k-th largest record is the level of
    its own return period [1 / (1 - i / (nobs + 1)) / 365.25]. *)
Theorem c50_empirical : forall data numsim nodata intervals w a b c i j,
  (1 <= numsim)%Z -> (1 <= length data <= empDays numsim)%nat -> (forall v, In v data -> 0 <= v) ->
  empfit data intervals numsim nodata = FOk w a b c ->
  (i < length intervals)%nat -> (j < length intervals)%nat ->
  nth i intervals 0 <= nth j intervals 0 ->
  exists v v', nth_error w i = Some (Some v) /\ nth_error w j = Some (Some v') /\ 0 <= v <= v'.
Proof. intros data numsim nodata intervals w a b c i j H1 H2 H3. now apply emp_mono. Qed.
Print Assumptions c50_empirical.
Theorem c50_empirical_records : forall data numsim nodata k,
  (1 <= numsim)%Z -> (1 <= length data <= empDays numsim)%nat -> (k < length data)%nat ->
  exists v, empfit data [1 / (1 - qn (S (empDays numsim - 1 - k)) / (365.25 * inject_Z numsim + 1)) / 365.25] numsim nodata
      = FOk [Some v] nodata nodata nodata /\
    v == nth (length data - 1 - k) (sortq data) 0.
Proof.
  intros data numsim nodata k H1 H2 H3. destruct (emp_knot data numsim nodata H1 H2 k H3) as (v & E & V).
  exists v. split; [|exact V]. rewrite <- E. unfold rp. rewrite empRp_nth by lia. reflexivity.
Qed.
Print Assumptions c50_empirical_records.
(** An interval outside the empirical range raises an error instead of extrapolating. *)
Theorem c50_empirical_range : forall data numsim nodata intervals,
  (1 <= numsim)%Z -> (1 <= length data <= empDays numsim)%nat ->
  let lowest := 1 / (1 - 1 / (365.25 * inject_Z numsim + 1)) / 365.25 in
  let highest := 1 / (1 - qn (empDays numsim) / (365.25 * inject_Z numsim + 1)) / 365.25 in
  ((forall t, In t intervals -> lowest <= t <= highest) <-> empfit data intervals numsim nodata <> FErr).
Proof.
  intros data numsim nodata intervals H1 H2. cbv zeta.
  assert (L : nth 0 (empRp numsim) 0 = 1 / (1 - 1 / (365.25 * inject_Z numsim + 1)) / 365.25).
  { rewrite empRp_nth by lia. reflexivity. }
  assert (U : nth (empDays numsim - 1) (empRp numsim) 0 = 1 / (1 - qn (empDays numsim) / (365.25 * inject_Z numsim + 1)) / 365.25).
  { rewrite empRp_nth by lia. now replace (S (empDays numsim - 1)) with (empDays numsim) by lia. }
  rewrite <- L, <- U. split.
  - intros H. destruct (emp_ok data numsim nodata H1 H2 intervals H) as (w & -> & _). discriminate.
  - intros H t Ht. split; apply Qnot_lt_le; intros C; apply H; eapply emp_err; eauto.
Qed.
Print Assumptions c50_empirical_range.
Example c50_example : empfit [30; 20; 40] [1; 5#2] 2 (-(9999)) = FErr
  /\ match empfit [30; 20; 40] [1#10; 1] 2 (-(9999)) with FOk [Some a; Some b] _ _ _ => Qeq_bool a 0 && Qle_bool 20 b && Qle_bool b 40 | _ => false end = true.
Proof. split; vm_compute; reflexivity. Qed.

(** * C51 *)
(** Whatever the estimator and the level formula do.  The non-negative series is sorted, as
    calculateGEV does before calling the fit. *)
Theorem c51_gev_missing : forall pelgev level data intervals nodata minrecords,
  data <> [] -> (forall v, In v data -> 0 <= v) -> nodata <= 0 ->
  ((Z.of_nat (length (filter (fun v => qlt 0 v) data)) < minrecords)%Z \/
   (forall a b, In a data -> In b data -> 0 < a -> 0 < b -> a == b)) ->
  gevfit pelgev level data intervals nodata minrecords =
    FOk (map (fun _ => Some nodata) intervals) nodata nodata nodata.
Proof.
  intros pelgev level data intervals nodata minrecords H1 H2 H3 H4. apply gev_rejected; auto.
  destruct H4 as [H4|H4]; [left; exact H4|right]. intros a b Ha Hb.
  apply filter_In in Ha as [Ha Pa]. apply filter_In in Hb as [Hb Pb].
  apply CellProofs.qlt_iff in Pa. apply CellProofs.qlt_iff in Pb. auto.
Qed.
Print Assumptions c51_gev_missing.
Theorem c51_gev_fitted : forall pelgev level data intervals nodata minrecords a b,
  (3 <= length data)%nat -> (forall i j, (i <= j < length data)%nat -> nth i data 0 <= nth j data 0) ->
  (forall v, In v data -> 0 <= v) -> nodata <= 0 ->
  (minrecords <= Z.of_nat (length (filter (fun v => qlt 0 v) data)))%Z ->
  In a data -> In b data -> 0 < a -> a < b ->
  exists l1 l2 t3, samlmu3 data = LOk (l1, l2, Some t3) /\ 0 < l2 /\ -(1) <= t3 <= 1 /\
    gevfit pelgev level data intervals nodata minrecords =
      if Qle_bool 1 (Qabs t3) then FOk (map (fun _ => Some nodata) intervals) nodata nodata nodata
      else match pelgev (l1, l2, t3) with
           | None => FOk (map (fun _ => Some nodata) intervals) nodata nodata nodata
           | Some (loc, scale, shp) =>
               FOk (map (fun t => if Qle_bool shp 0 then Some nodata
                                  else match level (loc, scale, shp) t with Some v => Some v | None => Some nodata end) intervals)
                   loc scale shp
           end.
Proof.
  intros pelgev level data intervals nodata minrecords a b H1 H2 H3 H4 H5 Ha Hb Pa Hab.
  apply (gev_fitted pelgev level data intervals nodata minrecords a b); auto.
  - clear - H2. induction data as [|x l IH]; constructor.
    + intros y Hy. apply (In_nth _ _ 0) in Hy as (k & Hk & <-). apply (H2 0%nat (S k)). cbn. lia.
    + apply IH. intros i j Hij. apply (H2 (S i) (S j)). cbn. lia.
  - apply filter_In. split; [exact Ha|]. apply CellProofs.qlt_iff. exact Pa.
  - apply filter_In. split; [exact Hb|]. apply CellProofs.qlt_iff. lra.
Qed.
Print Assumptions c51_gev_fitted.
(** A cell of the hazard grid with wind gets the fit of its sorted column. *)
Theorem c51_gev_cell : forall pelgev level column intervals nodata minrecords v, In v column -> 0 < v ->
  gevCell pelgev level column intervals nodata minrecords = gevfit pelgev level (sortq column) intervals nodata minrecords
  /\ Permutation (sortq column) column /\ asc (sortq column).
Proof.
  intros. split; [eapply cell_wind; eauto|]. split; [apply sortq_perm|apply sortq_asc].
Qed.
Print Assumptions c51_gev_cell.
(** A cell without any wind reports zero, not the missing value. *)
Theorem c51_no_wind_refuted : forall pelgev level column intervals nodata minrecords,
  column <> [] -> (forall v, In v column -> v <= 0) ->
  gevCell pelgev level column intervals nodata minrecords = FOk (map (fun _ => Some 0) intervals) 0 0 0.
Proof. intros. now apply cell_zero. Qed.
Print Assumptions c51_no_wind_refuted.
(** Pareto fits.  Missing: the guards on positive and distinct records, see below. *)
Theorem c51_gpd_partial : forall percentile genpareto level data intervals numsim nodata minrecords,
  let missing := FOk (map (fun _ => Some nodata) intervals) nodata nodata nodata in
  ((Z.of_nat (length data) < minrecords)%Z ->
     gpdfit percentile genpareto level data intervals numsim nodata minrecords = missing) /\
  ((minrecords <= Z.of_nat (length data))%Z -> data <> [] ->
     (Z.of_nat (length data) <= Qfloor (inject_Z numsim * 365.25))%Z ->
     let days := Z.to_nat (Qfloor (inject_Z numsim * 365.25)) in
     let filled := (repeat 0 (days - length data) ++ data)%list in
     let exceed := filter (fun v => qlt (percentile data) v) filled in
     gpdfit percentile genpareto level data intervals numsim nodata minrecords =
       match genpareto exceed (percentile data) with
       | None => missing
       | Some (shape, location, scale) =>
           if qlt 0 shape then missing
           else FOk (map (fun t => level t (percentile data) shape scale (qn (length exceed) / qn days)) intervals)
                    location scale shape
       end).
Proof. exact gpd_cases. Qed.
Print Assumptions c51_gpd_partial.
(** Three records of which one is positive pass a minimum of three records: the Pareto fit counts
    all records, not the positive ones. *)
Theorem c51_gpd_few_refuted : exists data minrecords, (Z.of_nat (length (filter (fun v => qlt 0 v) data)) < minrecords)%Z /\
  forall percentile genpareto level intervals numsim nodata shape location scale, (1 <= numsim)%Z ->
    (forall e m, genpareto e m = Some (shape, location, scale)) -> shape <= 0 ->
    exists w, gpdfit percentile genpareto level data intervals numsim nodata minrecords = FOk w location scale shape.
Proof.
  exists [0; 0; 5], 3%Z. split; [reflexivity|]. intros percentile genpareto level intervals numsim nodata shape location scale Hn Hg Hs.
  destruct (gpd_cases percentile genpareto level [0; 0; 5] intervals numsim nodata 3) as [_ H].
  cbn [length] in H. rewrite H; [|lia|discriminate|].
  - cbv zeta. rewrite Hg. rewrite (proj2 (GenProofs.qlt_false_iff 0 shape)) by exact Hs. eexists. reflexivity.
  - apply Z.le_trans with (Qfloor 365.25); [vm_compute; discriminate|]. apply Qfloor_resp_le.
    assert (inject_Z 1 <= inject_Z numsim) by now rewrite <- Zle_Qle. change (inject_Z 1) with 1 in H0. lra.
Qed.
Print Assumptions c51_gpd_few_refuted.
Example c51_example :
  let pel := fun p : Q * Q * Q => Some (1, 2, 3) in let lev := fun (p : Q * Q * Q) (t : Q) => Some t in
  gevfit pel lev [0; 1; 2; 4] [10; 20] (-(9999)) 3 = FOk [Some 10; Some 20] 1 2 3 /\
  gevfit pel lev [0; 1; 2; 4] [10; 20] (-(9999)) 4 = FOk [Some (-(9999)); Some (-(9999))] (-(9999)) (-(9999)) (-(9999)) /\
  gevCell pel lev [4; 0; 2; 1] [10] (-(9999)) 3 = FOk [Some 10] 1 2 3.
Proof. vm_compute. auto. Qed.

(** * C59 *)
(** With Python 3 the number of samples is a float: the calculation stops with a TypeError. *)
Theorem c59_crash_refuted : forall (records : list Q) sample_size, calculateCI records sample_size = None.
Proof. reflexivity. Qed.
Print Assumptions c59_crash_refuted.
(** With integer division (Python 2) every block is one record short: exactly the records at
    positions k with k mod size = size - 1 are lost. *)
Theorem c59_short_refuted : forall N size, (1 <= size)%nat ->
  (forall records : list Q, forall b, In b (ciBlocks records size) -> length b = (size - 1)%nat) /\
  (forall k, (exists b, In b (ciBlocks (seq 0 N) size) /\ In k b) <-> (k / size < N / size)%nat /\ (k mod size <> size - 1)%nat).
Proof. intros N size H. split; [intros; eapply block_length; eauto|intros; now apply blocks_members]. Qed.
Print Assumptions c59_short_refuted.
Theorem c59_blocks_partial : forall N size, (1 <= size)%nat ->
  length (ciBlocks (seq 0 N) size) = (N / size)%nat /\
  forall n, (n < N / size)%nat -> nth n (ciBlocks (seq 0 N) size) [] = seq (n * size) (size - 1).
Proof.
  intros N size H. split; [rewrite blocks_count, seq_length; reflexivity|]. intros. now apply blocks_seq.
Qed.
Print Assumptions c59_blocks_partial.
Example c59_example : ciBlocks (seq 0 7) 3 = [[0; 1]; [3; 4]]%nat.
Proof. reflexivity. Qed.

(** * C89 *)
Section Estimators.
Open Scope R_scope.
(** The estimated distribution has the mean and the second L-moment it was estimated from. Every double above -1 is
    at least [-1 + 2^-53]. *)
Theorem c89_gev : forall gamma, (forall z, 0 < z -> 0 < gamma z) ->
  forall l1 l2 t3, 0 < l2 -> - 1 + / 2 ^ 53 <= t3 < 1 ->
  let '(loc, scale, k) := pelgev gamma l1 l2 t3 in
  0 < scale /\ -1 < k /\ (t3 <= 0 -> 0 < k) /\
  (k <> 0 -> loc + scale * (1 - gamma (1 + k)) / k = l1 /\ scale * gamma (1 + k) * (1 - Rpower 2 (- k)) / k = l2) /\
  (k = 0 -> loc + EU * scale = l1 /\ scale * DL2 = l2).
Proof. exact pelgev_all. Qed.
Theorem c89_gpd : forall l1 l2 t3, 0 < l2 -> -1 < t3 < 1 ->
  let '(loc, scale, k) := pelgpa l1 l2 t3 in
  0 < scale /\ -1 < k /\ loc + scale / (1 + k) = l1 /\ scale / ((1 + k) * (2 + k)) = l2 /\ (1 - k) / (3 + k) = t3.
Proof. exact pelgpa_ok. Qed.
Theorem c89_invalid : forall gamma l1 l2 t3, l2 <= 0 \/ 1 <= Rabs t3 ->
  pelgev gamma l1 l2 t3 = (0, 0, 0) /\ pelgpa l1 l2 t3 = (0, 0, 0).
Proof.
  intros gamma l1 l2 t3 H. unfold pelgev, pelgpa.
  destruct (Rle_dec l2 0); [auto|]. destruct (Rle_dec 1 (Rabs t3)); [auto|]. tauto.
Qed.
Example c89_example : exists gamma : R -> R, (forall z, 0 < z -> 0 < gamma z) /\ 0 < 1 /\ - 1 + / 2 ^ 53 <= - 9 / 10 < 1.
Proof. exists (fun _ => 1). repeat split; intros; Lra.lra. Qed.
End Estimators.
Print Assumptions c89_gev.
Print Assumptions c89_gpd.
Print Assumptions c89_invalid.

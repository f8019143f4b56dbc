(** C18, C19, C20, C21, C68, C69, C70, C71. *)
From Coq Require Import QArith Qabs Qround Lqa Sorted.
From Verif Require Import Base CellModel CellProofs SampModel SampProofs.
Close Scope Q_scope. Close Scope Z_scope. Open Scope list_scope. Open Scope nat_scope.

(** C18 *)
Theorem c18_cdf : forall x y, 2 <= length x -> (~ nth 0 x 0 == nth 1 x 0)%Q -> nonneg y -> (0 < qsum y)%Q ->
  exists c, cdf x y = SOk c /\ length c = length y /\ nondecr c /\
    (forall i, i < length y -> (0 <= nth i c 0 /\ nth i c 0 <= 1)%Q) /\ (nth (length y - 1) c 0 == 1)%Q.
Proof. exact c18_cdf_l. Qed.
Print Assumptions c18_cdf.
Theorem c18_cdf_zero : forall x y, 2 <= length x -> (~ nth 0 x 0 == nth 1 x 0)%Q -> y <> [] ->
  (forall i, (nth i y 0 == 0)%Q) ->
  exists c, cdf x y = SOk c /\ length c = length y /\ (forall i, i < length y -> (nth i c 0 == 0)%Q).
Proof. exact c18_zero_l. Qed.
Print Assumptions c18_cdf_zero.
Theorem c18_cdf2d : forall x y z nx ny, 2 <= nx -> 2 <= ny -> length x = nx -> length y = ny -> rect nx ny z ->
  (~ nth 0 x 0 == nth 1 x 0)%Q -> (~ nth 0 y 0 == nth 1 y 0)%Q -> nonneg2 z -> (0 < boxsum z (nx - 1) (ny - 1))%Q ->
  exists c, cdf2d x y z = SOk c /\ rect nx ny c /\
    (forall i j i' j', i <= i' -> j <= j' -> i' < nx -> j' < ny -> (nth j (nth i c []) 0 <= nth j' (nth i' c []) 0)%Q) /\
    (forall i j, i < nx -> j < ny -> (0 <= nth j (nth i c []) 0 /\ nth j (nth i c []) 0 <= 1)%Q) /\
    (nth (ny - 1) (nth (nx - 1) c []) 0 == 1)%Q.
Proof. exact c18_cdf2d_l. Qed.
Print Assumptions c18_cdf2d.
(** The value at (i,j) is the share of the density in the rectangle below and left of it. *)
Theorem c18_cdf2d_value : forall x y z nx ny, 2 <= nx -> 2 <= ny -> length x = nx -> length y = ny -> rect nx ny z ->
  (~ nth 0 x 0 == nth 1 x 0)%Q -> (~ nth 0 y 0 == nth 1 y 0)%Q -> ~ (boxsum z (nx - 1) (ny - 1) == 0)%Q ->
  exists c, cdf2d x y z = SOk c /\ rect nx ny c /\
    forall i j, i < nx -> j < ny -> (nth j (nth i c []) 0 == boxsum z i j / boxsum z (nx - 1) (ny - 1))%Q.
Proof. exact cdf2d_spec. Qed.
Print Assumptions c18_cdf2d_value.
Example c18_run : cdf [0; 2; 4]%Q [1; 0; 3]%Q = SOk [2 / 8; 2 / 8; 8 / 8]%Q.
Proof. reflexivity. Qed.
Ltac nn := intros ?i; do 4 (destruct i as [|i]; [simpl; lra|]); simpl; lra.
Example c18_met : nonneg [1; 0; 3]%Q /\ (0 < qsum [1; 0; 3])%Q /\
  rect 2 2 [[1; 0]; [3; 4]]%Q /\ nonneg2 [[1; 0]; [3; 4]]%Q /\ (0 < boxsum [[1; 0]; [3; 4]] 1 1)%Q.
Proof.
  split; [nn|]. split; [simpl; lra|]. split; [split; [reflexivity|repeat constructor]|].
  split; [repeat constructor; nn|unfold boxsum; simpl; lra].
Qed.

(** C19 *)
Theorem c19_possible : forall x y z q1 q2, origin_ok x y z -> (0 < q1)%Q -> (q1 <= 1)%Q -> (0 < q2)%Q -> (q2 <= 1)%Q ->
  exists i j, i < length x /\ j < length y /\ originPpf x y z q1 q2 = SOk (nth i x 0%Q, nth j y 0%Q) /\
    (0 < nth i (nth j z []) 0)%Q.
Proof. exact c19_possible_l. Qed.
Print Assumptions c19_possible.
(** The point (x_i, y_j) is returned exactly for q1 in the slot of column i among the column totals and
    q2 in the slot of row j within column i ... *)
Theorem c19_exact : forall x y z q1 q2 i j, origin_ok x y z -> (0 < q1)%Q -> (q1 <= 1)%Q -> (0 < q2)%Q -> (q2 <= 1)%Q ->
  i < length x -> j < length y ->
  (originPpf x y z q1 q2 = SOk (nth i x 0%Q, nth j y 0%Q) <->
   in_slot (colTotals (length x) z) i q1 /\ in_slot (column z i) j q2).
Proof. exact c19_exact_l. Qed.
Print Assumptions c19_exact.
(** ... and the lengths of these two slots multiply to the probability of the point. *)
Theorem c19_size : forall z nx i j, i < nx -> nonneg2 z -> (0 < total nx z)%Q -> (0 < colTotal z i)%Q ->
  (((qsum (firstn i (colTotals nx z)) + nth i (colTotals nx z) 0) / total nx z - qsum (firstn i (colTotals nx z)) / total nx z) *
   ((qsum (firstn j (column z i)) + nth j (column z i) 0) / qsum (column z i) - qsum (firstn j (column z i)) / qsum (column z i))
   == nth i (nth j z []) 0 / total nx z)%Q.
Proof. exact c19_size_l. Qed.
Print Assumptions c19_size.
Theorem c19_samples : forall x y z ns us, origin_ok x y z ->
  ((ns <= 0)%Z -> originSamples x y z ns us = SErr EValue) /\
  ((0 < ns)%Z -> (Z.to_nat ns <= length us) -> Forall (fun u => 0 < fst u /\ fst u <= 1 /\ 0 < snd u /\ snd u <= 1)%Q us ->
   exists vs, originSamples x y z ns us = SOk vs /\ length vs = Z.to_nat ns /\
     Forall (fun v => exists i j, i < length x /\ j < length y /\ v = (nth i x 0%Q, nth j y 0%Q) /\ (0 < nth i (nth j z []) 0)%Q) vs).
Proof. exact c19_samples_l. Qed.
Print Assumptions c19_samples.
(** Outside the property's hypothesis: the generator can return 0, and then sampling fails if the
    first column is impossible. *)
Theorem c19_zero_draw : forall x y z q2, origin_ok x y z -> (colTotal z 0 == 0)%Q -> (0 < q2)%Q ->
  originPpf x y z 0 q2 = SErr EIndex.
Proof. exact c19_zero_l. Qed.
Print Assumptions c19_zero_draw.
Definition ox : list Q := [100; 101; 102]%Q.
Definition oy : list Q := [-10; -11]%Q.
Definition oz : list (list Q) := [[0; 1; 2]; [0; 3; 2]]%Q.
Ltac ords := intros i j H1 H2; simpl in H2; destruct i as [|[|[|i]]]; destruct j as [|[|[|j]]]; try lia; simpl; lra.
Example c19_met : origin_ok ox oy oz /\ (colTotal oz 0 == 0)%Q.
Proof.
  split; [|unfold colTotal; simpl; lra]. split; try (simpl; lia).
  - split; [reflexivity|repeat constructor].
  - ords.
  - ords.
  - repeat constructor; nn.
  - unfold total, colTotals, colTotal; simpl; lra.
Qed.
Example c19_run : originPpf ox oy oz 0.3%Q 0.2%Q = SOk (101, -10)%Q /\ originPpf ox oy oz 0.3%Q 0.3%Q = SOk (101, -11)%Q.
Proof. split; reflexivity. Qed.

(** C20 above the first grid point. Missing: at and below it, where it is false. *)
Theorem c20_above_partial : forall x y z xx yy, origin_ok x y z -> incr y -> (nth 0 x 0 < xx)%Q -> (nth 0 y 0 < yy)%Q ->
  exists a b i, originCdf x y z xx yy = SOk (a, b) /\
    (a == massBelow x (colTotals (length x) z) xx / total (length x) z)%Q /\
    i < length x /\ (nth i x 0 < xx)%Q /\ (forall k, k < length x -> i < k -> (xx <= nth k x 0)%Q) /\
    ((0 < colTotal z i)%Q -> (b == massBelow y (column z i) yy / colTotal z i)%Q).
Proof. exact c20_above_l. Qed.
Print Assumptions c20_above_partial.
Theorem c20_monotone_partial : forall x y z xx xx' yy yy' a b a' b', origin_ok x y z -> incr y ->
  (nth 0 x 0 < xx)%Q -> (nth 0 y 0 < yy)%Q -> (xx <= xx')%Q -> (nth 0 y 0 < yy')%Q ->
  originCdf x y z xx yy = SOk (a, b) -> originCdf x y z xx' yy' = SOk (a', b') -> (a <= a')%Q.
Proof. exact c20_monotone_l. Qed.
Print Assumptions c20_monotone_partial.
(** At and below the first longitude the value is 1 instead of 0. *)
Theorem c20_refuted : forall x y z xx yy, origin_ok x y z -> (xx <= nth 0 x 0)%Q -> (nth 0 y 0 < yy)%Q ->
  (massBelow x (colTotals (length x) z) xx == 0)%Q /\
  exists a b, originCdf x y z xx yy = SOk (a, b) /\ (a == 1)%Q.
Proof. exact c20_refuted_l. Qed.
Print Assumptions c20_refuted.
Definition oy' : list Q := [-11; -10]%Q.
Example c20_met : origin_ok ox oy' oz /\ incr oy' /\ (nth 0 ox 0 < 101.5)%Q /\ (nth 0 oy' 0 < -10.5)%Q.
Proof.
  assert (I : incr oy') by ords.
  split; [|split; [exact I|split; simpl; lra]]. split; try (simpl; lia).
  - split; [reflexivity|repeat constructor].
  - ords.
  - now apply incr_distinct.
  - repeat constructor; nn.
  - unfold total, colTotals, colTotal; simpl; lra.
Qed.
Example c20_run : match originCdf ox oy' oz 90 (-10.5)%Q with SOk (a, _) => Qeq_bool a 1 | _ => false end = true /\
  match originCdf ox oy' oz 101.5%Q (-10.5)%Q with SOk (a, b) => Qeq_bool a 0.5 && Qeq_bool b 0.25 | _ => false end = true.
Proof. split; reflexivity. Qed.

(** C21 *)
Theorem c21_total : forall tab q, table_ok tab -> (0 <= q)%Q -> (q <= 1)%Q ->
  exists v, ppf q tab = SOk v /\ In v (map fst tab).
Proof. exact c21_total_l. Qed.
Print Assumptions c21_total.
Theorem c21_monotone : forall tab q q' v v', table_ok tab -> (q <= q')%Q -> (q' <= 1)%Q ->
  ppf q tab = SOk v -> ppf q' tab = SOk v' -> (v <= v')%Q.
Proof. exact c21_monotone_l. Qed.
Print Assumptions c21_monotone.
Theorem c21_exact : forall tab i q, table_ok tab -> i < length tab -> (0 < q)%Q -> (q <= 1)%Q ->
  (ppf q tab = SOk (nth i (map fst tab) 0%Q) <->
   (nth i (map snd tab) 0 - tprob tab i < q /\ q <= nth i (map snd tab) 0)%Q).
Proof. exact c21_exact_l. Qed.
Print Assumptions c21_exact.
Theorem c21_positive : forall tab q v, table_ok tab -> (0 < q)%Q -> (q <= 1)%Q -> ppf q tab = SOk v ->
  exists i, i < length tab /\ v = nth i (map fst tab) 0%Q /\ (0 < tprob tab i)%Q.
Proof. exact c21_positive_l. Qed.
Print Assumptions c21_positive.
Theorem c21_samples : forall tab ns us, table_ok tab ->
  ((ns <= 0)%Z -> paramSamples tab ns us = SErr EValue) /\
  ((0 < ns)%Z -> (Z.to_nat ns <= length us) -> Forall (fun u => 0 <= u /\ u < 1)%Q us ->
   exists vs, paramSamples tab ns us = SOk vs /\ length vs = Z.to_nat ns /\ Forall (fun v => In v (map fst tab)) vs /\
     forall i, i < length vs -> ppf (nth i us 0%Q) tab = SOk (nth i vs 0%Q)).
Proof. exact c21_samples_l. Qed.
Print Assumptions c21_samples.
Definition tab1 : list (Q * Q) := [(950, 0.25); (960, 0.25); (970, 1)]%Q.
Example c21_met : table_ok tab1 /\ nonneg (map snd tab1).
Proof.
  split; [|nn]. split; [ords|]. split; [|split; [discriminate|reflexivity]]. ords.
Qed.
Example c21_run : ppf 0.25 tab1 = SOk 950%Q /\ ppf 0.26 tab1 = SOk 970%Q /\
  paramSamples tab1 2 [0.1; 0.9; 0.2]%Q = SOk [950; 970]%Q.
Proof. repeat split; reflexivity. Qed.

(** C68: with a tabulated pressure below the environmental pressure. Missing: without one. *)
Theorem c68_genesis_partial : forall tab env u, table_ok tab -> nonneg (map snd tab) ->
  (nth 0 (map fst tab) 0 < env)%Q -> (0 <= u)%Q -> (u < 1)%Q ->
  exists p, genesisPressure tab env u = SOk p /\ In p (map fst tab) /\ (p < env)%Q.
Proof. exact genesis_pressure_l. Qed.
Print Assumptions c68_genesis_partial.
Theorem c68_genesis_refuted : forall tab env u, table_ok tab -> (env <= nth 0 (map fst tab) 0)%Q -> (0 <= u)%Q -> (u < 1)%Q ->
  exists p, genesisPressure tab env u = SOk p /\ (env <= p)%Q.
Proof. exact genesis_pressure_refuted_l. Qed.
Print Assumptions c68_genesis_refuted.
Example c68_run : genesisPressure tab1 965 0.9 = SOk 950%Q /\ genesisPressure tab1 940 0.9 = SOk 970%Q.
Proof. split; reflexivity. Qed.

(** C69: any density that is not zero on the whole grid. Missing: a step that does not divide the
    period, where it is false. *)
Theorem c69_table_partial : forall dens k params step, (0 < step)%Q -> 2 <= length params -> step_fits k step ->
  2 <= length (one_grid k params step) -> (forall v, 0 <= dens params v)%Q ->
  (exists v, In v (one_grid k params step) /\ (0 < dens params v)%Q) ->
  exists rows lo hi, generateKDE dens k params step = SOk rows /\ kde_range k params = Some (lo, hi) /\
    table_ok (xcdf rows) /\ nonneg (map snd (xcdf rows)) /\
    Forall (fun v => lo <= v /\ v < hi)%Q (map fst (xcdf rows)).
Proof. exact kde_table_l. Qed.
Print Assumptions c69_table_partial.
Theorem c69_period_refuted : forall dens p params step rows, (0 < p)%Z -> (0 < step)%Q -> ~ step_fits (Periodic p) step ->
  (step < inject_Z p)%Q -> generateKDE dens (Periodic p) params step = SOk rows ->
  exists v, In v (map fst (xcdf rows)) /\ (v < 1)%Q.
Proof. exact kde_period_l. Qed.
Print Assumptions c69_period_refuted.
Definition flat (_ : list Q) (_ : Q) : Q := 1%Q.
Example c69_met : generateKDE flat (Periodic 4) [1; 3]%Q 1 =
    SOk [(1, 3, 3 / 12); (2, 3, 6 / 12); (3, 3, 9 / 12); (4, 3, 12 / 12)]%Q /\
  generateKDE flat (Periodic 5) [1; 3]%Q 2 = SOk [(0, 3, 3 / 6); (1, 3, 6 / 6)]%Q /\
  ~ step_fits (Periodic 5) 2 /\ step_fits (Periodic 4) 1.
Proof.
  split; [vm_compute; reflexivity|]. split; [vm_compute; reflexivity|]. split.
  - intros [n H]. unfold Qeq in H. simpl in H. lia.
  - exists 4%Z. reflexivity.
Qed.

(** C70 *)
Theorem c70_cells : forall dens k sample step maxCell t, allDistributions dens k sample step maxCell = SOk t ->
  forall c, c <= maxCell -> exists rows, generateKDE dens k (sample c) step = SOk rows /\ cellTable t c = xcdf rows.
Proof. exact all_cells_l. Qed.
Print Assumptions c70_cells.
Example c70_met : exists t, allDistributions flat Angular (fun c => [1; inject_Z (Z.of_nat c)]%Q) 90 1 = SOk t /\ length t = 8.
Proof. eexists. split; vm_compute; reflexivity. Qed.

(** C71 *)
Theorem c71_in_domain : forall xMin xMax yMin yMax step z q1 q2, (0 < step)%Q ->
  let x := originGridX xMin xMax step in let y := originGridY yMin yMax step in
  2 <= length x -> 2 <= length y -> rect (length y) (length x) z -> nonneg2 z -> (0 < total (length x) z)%Q ->
  (0 < q1)%Q -> (q1 <= 1)%Q -> (0 < q2)%Q -> (q2 <= 1)%Q ->
  exists lon lat, originPpf x y z q1 q2 = SOk (lon, lat) /\ (xMin <= lon /\ lon < xMax /\ yMin < lat /\ lat <= yMax)%Q.
Proof. exact origin_in_domain_l. Qed.
Print Assumptions c71_in_domain.
Theorem c71_has_cell : forall (g : glimit) (s : gspace) step z q1 q2, (0 < step)%Q ->
  let x := originGridX (inject_Z (xMin g)) (inject_Z (xMax g)) step in
  let y := originGridY (inject_Z (yMin g)) (inject_Z (yMax g)) step in
  2 <= length x -> 2 <= length y -> rect (length y) (length x) z -> nonneg2 z -> (0 < total (length x) z)%Q ->
  (0 < q1)%Q -> (q1 <= 1)%Q -> (0 < q2)%Q -> (q2 <= 1)%Q ->
  exists lon lat n, originPpf x y z q1 q2 = SOk (lon, lat) /\ getCellNum lon lat g s = Some n.
Proof.
  intros g s step z q1 q2 P x y H1 H2 H3 H4 H5 A B C D.
  destruct (c71_in_domain _ _ _ _ _ z q1 q2 P H1 H2 H3 H4 H5 A B C D) as (lon & lat & E & I).
  exists lon, lat. destruct (getCellNum lon lat g s) as [n|] eqn:G; [exists n; auto|].
  apply cell_num_none in G. destruct G. exact I.
Qed.
Print Assumptions c71_has_cell.
Example c71_met : originGridX 100 102 1 = [100; 101]%Q /\ length (originGridY (-12) (-10) 1) = 2 /\
  rect 2 2 [[1; 0]; [3; 4]]%Q.
Proof. split; [reflexivity|]. split; [reflexivity|]. split; [reflexivity|repeat constructor]. Qed.

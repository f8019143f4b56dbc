(** C15, C16, C17. *)
From Coq Require Import QArith Qround Qminmax Lqa.
From Verif Require Import Base TileModel CellModel CellProofs.
Close Scope Q_scope. Open Scope Z_scope.

(** C15 for domains on one side of the equator and of the prime meridian. Missing: the others. *)
Theorem c15_numbers_partial : forall g s nx ny lon lat, domain_ok g s nx ny -> one_sided g -> in_domain g lon lat ->
  exists n w t, getCellNum lon lat g s = Some n /\ 0 <= n <= maxCellNum g s /\ validCellNum n g s = true /\
    getCellLonLat n g s = Some (w, t) /\
    (inject_Z w <= lon /\ lon < inject_Z (w + gx s) /\ inject_Z (t - gy s) < lat /\ lat <= inject_Z t)%Q.
Proof. exact c15_numbers_l. Qed.
Print Assumptions c15_numbers_partial.
Theorem c15_same_cell_partial : forall g s nx ny lon lat lon' lat', domain_ok g s nx ny -> one_sided g ->
  in_domain g lon lat -> in_domain g lon' lat' ->
  (getCellNum lon lat g s = getCellNum lon' lat' g s <->
   exists i j, in_cell g s i j lon lat /\ in_cell g s i j lon' lat').
Proof. exact c15_same_l. Qed.
Print Assumptions c15_same_cell_partial.
Theorem c15_inverse_partial : forall g s nx ny n, domain_ok g s nx ny -> one_sided g -> 0 <= n <= maxCellNum g s ->
  exists w t, getCellLonLat n g s = Some (w, t) /\ getCellNum (inject_Z w) (inject_Z t) g s = Some n.
Proof. exact c15_inverse_l. Qed.
Print Assumptions c15_inverse_partial.
(** For every domain: a number is refused exactly outside the domain. *)
Theorem c15_rejects : forall g s lon lat, getCellNum lon lat g s = None <-> ~ in_domain g lon lat.
Proof. exact cell_num_none. Qed.
Print Assumptions c15_rejects.
(** C15 fails for straddling domains: points mirrored at the meridian or equator share a number. *)
Theorem c15_straddling_refuted :
  (forall g s lat k, 0 < k -> xMin g <= - k -> k < xMax g ->
     getCellNum (inject_Z k) lat g s = getCellNum (inject_Z (- k)) lat g s) /\
  (forall g s lon k, 0 < k -> yMin g < - k -> k <= yMax g ->
     getCellNum lon (inject_Z k) g s = getCellNum lon (inject_Z (- k)) g s).
Proof. exact (conj c15_collide_lon c15_collide_lat). Qed.
Print Assumptions c15_straddling_refuted.

Definition aus : glimit := {| xMin := 90; xMax := 180; yMin := -30; yMax := -5 |}.
Definition one : gspace := {| gx := 1; gy := 1 |}.
Example c15_met : domain_ok aus one 90 25 /\ one_sided aus /\ in_domain aus 95.5%Q (-20)%Q /\
  getCellNum 95.5%Q (-20)%Q aus one = Some (15 * 90 + 5) /\ getCellLonLat 1355 aus one = Some (95, -20).
Proof.
  split; [split; cbn; lia|]. split; [unfold one_sided; cbn; lia|].
  split; [unfold in_domain; cbn; repeat split; unfold Qle, Qlt; cbn; lia|]. split; reflexivity.
Qed.
Example c15_collision : getCellNum 5.5%Q (-20)%Q {| xMin := -10; xMax := 10; yMin := -30; yMax := -5 |} one =
  getCellNum (-4.5)%Q (-20)%Q {| xMin := -10; xMax := 10; yMin := -30; yMax := -5 |} one.
Proof. reflexivity. Qed.

(** C16: with enough steps (and for every larger number) the search ends, either with the first
    window of the growth sequence whose sample is large enough and varied, or because no window
    qualifies, the growth having reached the domain. *)
Theorem c16_extract : forall g s nx ny ix iy data minSample c,
  domain_ok g s nx ny -> (0 < ix)%Q -> (0 < iy)%Q -> 0 <= c <= maxCellNum g s ->
  exists N lon lat, getCellLonLat c g s = Some (lon, lat) /\
  let win := window (inject_Z (xMin g)) (inject_Z (xMax g)) (inject_Z (yMin g)) (inject_Z (yMax g)) ix iy (cell_box g s lon lat) in
  let vals k := keep_vals (filter (fun o => in_box (win k) o && true) data) in
  let good k := (minSample < length (vals k))%nat /\ varied (vals k) in
  let dom := domain_box (inject_Z (xMin g)) (inject_Z (xMax g)) (inject_Z (yMin g)) (inject_Z (yMax g)) in
  (forall k o, in_box (win k) o = true -> in_box dom o = true) /\
  (forall k o, in_box (cell_box g s lon lat) o = true -> in_box (win k) o = true) /\
  forall fuel, (N <= fuel)%nat ->
  (exists p b k, extractParameter g s ix iy data minSample fuel c = Some (Sample p b) /\
     box_eq b (win k) /\ p = vals k /\ good k /\ forall j, (j < k)%nat -> ~ good j) \/
  (extractParameter g s ix iy data minSample fuel c = Some Exhausted /\ (forall j, ~ good j) /\
     exists k, box_eq (win k) dom).
Proof.
  intros g s nx ny ix iy data minSample c D Px Py Hc.
  assert (A : exists lon lat, getCellLonLat c g s = Some (lon, lat) /\ validCellNum c g s = true /\
    xMin g <= lon /\ lon + gx s <= xMax g /\ lat <= yMax g /\ yMin g <= lat - gy s).
  { pose proof (lonCells_eq g s nx ny D) as E1. pose proof (latCells_eq g s nx ny D) as E2.
    destruct D as [H1 H2 H3 H4 H5 H6]. unfold maxCellNum in Hc. rewrite E1, E2 in Hc.
    unfold getCellLonLat, validCellNum. rewrite E1, E2.
    replace (c <? 0) with false by lia. replace (c >? ny * nx - 1) with false by lia.
    pose proof (Z.mod_pos_bound c nx ltac:(lia)) as B1.
    assert (B2 : 0 <= c / nx < ny).
    { split; [apply Z.div_pos; lia|apply Z.div_lt_upper_bound; lia]. }
    replace ((c / nx <? ny) && (c mod nx <? nx)) with true by lia.
    do 2 eexists. split; [reflexivity|]. split; [reflexivity|].
    generalize dependent (c / nx). generalize dependent (c mod nx). intros; nia. }
  destruct A as (lon & lat & E & V & L1 & L2 & L3 & L4).
  assert (Hin : (inject_Z (xMin g) <= wLon (cell_box g s lon lat) /\ eLon (cell_box g s lon lat) <= inject_Z (xMax g) /\
    nLat (cell_box g s lon lat) <= inject_Z (yMax g) /\ inject_Z (yMin g) <= sLat (cell_box g s lon lat))%Q).
  { cbn. rewrite <- !Zle_Qle. lia. }
  destruct (extract_spec _ _ _ _ ix iy (Qlt_le_weak _ _ Px) (Qlt_le_weak _ _ Py) (fun _ => true) data _ Hin minSample) as (N & HN).
  exists N, lon, lat. split; [exact E|]. cbv zeta.
  split; [intros k o; apply window_inside|].
  split; [intros k o Ho; apply window_contains; solve [lra|exact Hin|exact Ho|exact (fun _ => true)|exact data|exact O]|].
  intros fuel Hf. specialize (HN fuel Hf). unfold extractParameter. rewrite V, E. cbn [negb].
  destruct (extract _ _ _ _ _ _ _ _ _ _ _) as [p b| |]; [left|right|destruct HN].
  - destruct HN as (k & B & P & Gd & M). exists p, b, k. auto.
  - destruct HN as (M & R). split; [reflexivity|]. split; [exact M|]. now apply R.
Qed.
Print Assumptions c16_extract.
(** The variant with land and sea samples ends for every data set too: its result is that of the
    sample wanted or, if that is exhausted over land, of the sea sample. *)
Theorem c16_land_sea : forall g s nx ny ix iy data minSample c onLand,
  domain_ok g s nx ny -> (0 < ix)%Q -> (0 < iy)%Q -> 0 <= c <= maxCellNum g s ->
  exists N lon lat, getCellLonLat c g s = Some (lon, lat) /\
  let win := window (inject_Z (xMin g)) (inject_Z (xMax g)) (inject_Z (yMin g)) (inject_Z (yMax g)) ix iy (cell_box g s lon lat) in
  let vals sel k := keep_vals (filter (fun o => in_box (win k) o && sel o) data) in
  let good sel k := (minSample < length (vals sel k))%nat /\ varied (vals sel k) in
  let land o := qlt 0 (o_ls o) in
  let sea o := Qeq_bool (o_ls o) 0 in
  forall fuel, (N <= fuel)%nat ->
  (exists p b k sel, extractParameterLS g s ix iy data minSample fuel c onLand = Some (Sample p b) /\
     box_eq b (win k) /\ p = vals sel k /\ good sel k /\ (forall j, (j < k)%nat -> ~ good sel j) /\
     (sel = sea /\ (onLand = true -> forall j, ~ good land j) \/ sel = land /\ onLand = true)) \/
  (extractParameterLS g s ix iy data minSample fuel c onLand = Some Exhausted /\ (forall j, ~ good sea j) /\
     (onLand = true -> forall j, ~ good land j)).
Proof.
  intros g s nx ny ix iy data minSample c onLand D Px Py Hc.
  destruct (c16_extract g s nx ny ix iy data minSample c D Px Py Hc) as (_ & lon & lat & E & _).
  assert (V : validCellNum c g s = true /\ xMin g <= lon /\ lon + gx s <= xMax g /\ lat <= yMax g /\ yMin g <= lat - gy s).
  { pose proof (lonCells_eq g s nx ny D) as E1. pose proof (latCells_eq g s nx ny D) as E2.
    destruct D as [H1 H2 H3 H4 H5 H6]. unfold maxCellNum in Hc. rewrite E1, E2 in Hc.
    unfold getCellLonLat in E. unfold validCellNum. rewrite E1, E2 in *.
    replace (c <? 0) with false in * by lia. replace (c >? ny * nx - 1) with false by lia.
    pose proof (Z.mod_pos_bound c nx ltac:(lia)) as B1.
    assert (B2 : 0 <= c / nx < ny).
    { split; [apply Z.div_pos; lia|apply Z.div_lt_upper_bound; lia]. }
    replace ((c / nx <? ny) && (c mod nx <? nx)) with true in E by lia.
    injection E as <- <-. split; [reflexivity|].
    generalize dependent (c / nx). generalize dependent (c mod nx). intros; nia. }
  destruct V as (V & L1 & L2 & L3 & L4).
  assert (Hin : (inject_Z (xMin g) <= wLon (cell_box g s lon lat) /\ eLon (cell_box g s lon lat) <= inject_Z (xMax g) /\
    nLat (cell_box g s lon lat) <= inject_Z (yMax g) /\ inject_Z (yMin g) <= sLat (cell_box g s lon lat))%Q).
  { cbn. rewrite <- !Zle_Qle. lia. }
  pose proof (extract_spec _ _ _ _ ix iy (Qlt_le_weak _ _ Px) (Qlt_le_weak _ _ Py) (fun o => qlt 0 (o_ls o)) data _ Hin minSample) as (N1 & HN1).
  pose proof (extract_spec _ _ _ _ ix iy (Qlt_le_weak _ _ Px) (Qlt_le_weak _ _ Py) (fun o => Qeq_bool (o_ls o) 0) data _ Hin minSample) as (N2 & HN2).
  exists (N1 + N2)%nat, lon, lat. split; [exact E|]. cbv zeta. intros fuel Hf.
  specialize (HN1 fuel ltac:(lia)). specialize (HN2 fuel ltac:(lia)).
  unfold extractParameterLS. rewrite V, E. cbn [negb].
  destruct onLand.
  - destruct (extract _ _ _ _ _ _ (fun o => qlt 0 (o_ls o)) _ _ _ _) as [p b| |]; [left| |destruct HN1].
    + destruct HN1 as (k & B & P & Gd & M). exists p, b, k, (fun o => qlt 0 (o_ls o)).
      do 5 (split; [solve [auto]|]). right. auto.
    + destruct HN1 as (M1 & _).
      destruct (extract _ _ _ _ _ _ (fun o => Qeq_bool (o_ls o) 0) _ _ _ _) as [p b| |]; [left|right|destruct HN2].
      * destruct HN2 as (k & B & P & Gd & M). exists p, b, k, (fun o => Qeq_bool (o_ls o) 0).
        do 5 (split; [solve [auto]|]). left. auto.
      * destruct HN2 as (M & _). auto.
  - destruct (extract _ _ _ _ _ _ (fun o => Qeq_bool (o_ls o) 0) _ _ _ _) as [p b| |]; [left|right|destruct HN2].
    + destruct HN2 as (k & B & P & Gd & M). exists p, b, k, (fun o => Qeq_bool (o_ls o) 0).
      do 5 (split; [solve [auto]|]). left. split; [auto|discriminate].
    + destruct HN2 as (M & _). split; [auto|]. split; [auto|discriminate].
Qed.
Print Assumptions c16_land_sea.
Definition ob (x y v : Q) : obs := {| o_lon := x; o_lat := y; o_ls := 0; o_val := Some v |}.
Example c16_example :
  extractParameter aus one 1 1 [ob 95.5 (-20.5) 1; ob 96.5 (-20.5) 1; ob 97.5 (-20.5) 3]%Q 1 10 (15 * 90 + 5) =
  Some (Sample [1; 1; 3]%Q {| wLon := 93; eLon := 98; nLat := -18; sLat := -23 |}) /\
  extractParameter aus one 1 1 [ob 95.5 (-20.5) 1]%Q 1 100 (15 * 90 + 5) = Some Exhausted.
Proof. split; vm_compute; reflexivity. Qed.

(** C17 for observations that do not lie on the boundary between two rows of cells. Missing: those. *)
Theorem c17_own_window_partial : forall g s nx ny lon lat n w t o, domain_ok g s nx ny -> one_sided g ->
  in_domain g lon lat -> getCellNum lon lat g s = Some n -> getCellLonLat n g s = Some (w, t) ->
  o_lon o = lon -> o_lat o = lat -> ~ (lat == inject_Z t)%Q -> in_box (cell_box g s w t) o = true.
Proof.
  intros g s nx ny lon lat n w t o D O I En Ew <- <- Nt.
  destruct (c15_numbers_l g s nx ny _ _ D O I) as (n' & w' & t' & En' & _ & _ & Ew' & H1 & H2 & H3 & H4).
  rewrite En in En'. injection En' as <-. rewrite Ew in Ew'. injection Ew' as <- <-.
  apply in_box_iff. cbn. repeat split; lra.
Qed.
Print Assumptions c17_own_window_partial.
(** C17 fails: an observation on the northern edge of its cell is not in the window of that cell,
    and one on the northern edge of the domain is in no window of any cell, however far it grows. *)
Theorem c17_north_edge_refuted :
  (forall g s nx ny lon lat n w t o, domain_ok g s nx ny -> one_sided g -> in_domain g lon lat ->
   getCellNum lon lat g s = Some n -> getCellLonLat n g s = Some (w, t) ->
   o_lon o = lon -> o_lat o = lat -> (lat == inject_Z t)%Q -> in_box (cell_box g s w t) o = false) /\
  (forall g s ix iy w t k o, (o_lat o == inject_Z (yMax g))%Q ->
   in_box (window (inject_Z (xMin g)) (inject_Z (xMax g)) (inject_Z (yMin g)) (inject_Z (yMax g)) ix iy (cell_box g s w t) k) o = false).
Proof.
  split.
  - intros g s nx ny lon lat n w t o D O I En Ew <- <- Nt.
    destruct (in_box _ o) eqn:E; [|reflexivity]. apply in_box_iff in E. cbn in E. lra.
  - intros g s ix iy w t k o E0. destruct (in_box _ o) eqn:E; [|reflexivity].
    apply window_inside in E. apply in_box_iff in E. cbn in E. lra.
Qed.
Print Assumptions c17_north_edge_refuted.
Example c17_witness : getCellNum 95.5%Q (-20)%Q aus one = Some 1355 /\
  getCellLonLat 1355 aus one = Some (95, -20) /\ in_box (cell_box aus one 95 (-20)) (ob 95.5 (-20) 1)%Q = false /\
  in_box (cell_box aus one 95 (-20)) (ob 95.5 (-20.5) 1)%Q = true.
Proof. vm_compute. auto. Qed.

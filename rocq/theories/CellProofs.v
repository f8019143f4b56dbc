From Coq Require Import QArith Qround Qminmax Lqa.
From Verif Require Import Base TileModel TileProofs CellModel.
Close Scope Q_scope. Open Scope Z_scope.
Ltac Zify.zify_post_hook ::= Z.div_mod_to_equations.

(** ** Cell numbers *)
Record domain_ok (g : glimit) (s : gspace) (nx ny : Z) : Prop := {
  d_gx : 0 < gx s; d_gy : 0 < gy s; d_nx : 0 < nx; d_ny : 0 < ny;
  d_x : xMax g = xMin g + nx * gx s; d_y : yMax g = yMin g + ny * gy s }.
Definition in_domain (g : glimit) (lon lat : Q) : Prop :=
  (inject_Z (xMin g) <= lon /\ lon < inject_Z (xMax g) /\ inject_Z (yMin g) < lat /\ lat <= inject_Z (yMax g))%Q.
(** Cell in column j from the west and row i from the north, closed to the west and north. *)
Definition in_cell (g : glimit) (s : gspace) (i j : Z) (lon lat : Q) : Prop :=
  (inject_Z (xMin g + j * gx s) <= lon /\ lon < inject_Z (xMin g + (j + 1) * gx s) /\
   inject_Z (yMax g - (i + 1) * gy s) < lat /\ lat <= inject_Z (yMax g - i * gy s))%Q.
(** The domain does not lie on both sides of the equator or of the prime meridian. *)
Definition one_sided (g : glimit) : Prop := (0 <= xMin g \/ xMax g <= 1) /\ (-1 <= yMin g \/ yMax g <= 0).

Lemma floor_le q z : (inject_Z z <= q)%Q <-> z <= Qfloor q.
Proof.
  split; intros H.
  - rewrite <- (Qfloor_Z z). now apply Qfloor_resp_le.
  - eapply Qle_trans; [|apply Qfloor_le]. now rewrite <- Zle_Qle.
Qed.
Lemma floor_lt q z : (q < inject_Z z)%Q <-> Qfloor q < z.
Proof.
  split; intros H.
  - apply Z.nle_gt. intros C. apply floor_le in C. eapply Qlt_not_le; eauto.
  - apply Qnot_le_lt. intros C. apply floor_le in C. lia.
Qed.
Lemma ceil_le q z : (q <= inject_Z z)%Q <-> Qceiling q <= z.
Proof.
  split; intros H.
  - rewrite <- (Qceiling_Z z). now apply Qceiling_resp_le.
  - eapply Qle_trans; [apply Qle_ceiling|]. now rewrite <- Zle_Qle.
Qed.
Lemma ceil_lt q z : (inject_Z z < q)%Q <-> z < Qceiling q.
Proof.
  split; intros H.
  - apply Z.nle_gt. intros C. apply ceil_le in C. eapply Qlt_not_le; eauto.
  - apply Qnot_le_lt. intros C. apply ceil_le in C. lia.
Qed.

Lemma cell_num_none g s lon lat : getCellNum lon lat g s = None <-> ~ in_domain g lon lat.
Proof.
  unfold getCellNum, in_domain. rewrite floor_le, floor_lt, ceil_le, ceil_lt.
  destruct ((Qfloor lon <? xMin g) || (xMax g <=? Qfloor lon) || (Qceiling lat <=? yMin g) || (yMax g <? Qceiling lat)) eqn:E.
  - split; [|reflexivity]. intros _. lia.
  - split; [discriminate|]. lia.
Qed.
Lemma lonCells_eq g s nx ny : domain_ok g s nx ny -> lonCells g s = nx.
Proof.
  intros [H1 H2 H3 H4 H5 H6]. unfold lonCells, arange_size.
  replace (xMax g - xMin g) with (nx * gx s) by lia.
  pose proof (zceil_spec (nx * gx s) (gx s) H1). nia.
Qed.
Lemma latCells_eq g s nx ny : domain_ok g s nx ny -> latCells g s = ny.
Proof.
  intros [H1 H2 H3 H4 H5 H6]. unfold latCells, arange_size.
  replace (yMax g - yMin g) with (ny * gy s) by lia.
  pose proof (zceil_spec (ny * gy s) (gy s) H2). nia.
Qed.
Lemma cell_num_val g s nx ny lon lat : domain_ok g s nx ny -> one_sided g -> in_domain g lon lat ->
  exists i j, 0 <= i < ny /\ 0 <= j < nx /\ in_cell g s i j lon lat /\ getCellNum lon lat g s = Some (i * nx + j).
Proof.
  intros [H1 H2 H3 H4 H5 H6] [O1 O2] D.
  exists ((yMax g - Qceiling lat) / gy s), ((Qfloor lon - xMin g) / gx s).
  unfold in_domain in D. rewrite floor_le, floor_lt, ceil_le, ceil_lt in D.
  unfold in_cell. rewrite floor_le, floor_lt, ceil_le, ceil_lt. unfold getCellNum.
  generalize dependent (Qfloor lon). generalize dependent (Qceiling lat). intros y x D.
  replace ((x <? xMin g) || (xMax g <=? x) || (y <=? yMin g) || (yMax g <? y)) with false by lia.
  assert (E1 : Z.abs (Z.abs x - Z.abs (xMin g)) = x - xMin g) by lia.
  assert (E2 : Z.abs (Z.abs y - Z.abs (yMax g)) = yMax g - y) by lia.
  rewrite E1, E2, (Z.abs_eq (gx s)), (Z.abs_eq (gy s)) by lia.
  replace (xMax g - xMin g) with (nx * gx s) by lia. rewrite Z.div_mul by lia. rewrite (Z.abs_eq nx) by lia.
  split; [nia|]. split; [nia|]. split; [nia|]. reflexivity.
Qed.
Lemma cell_unique g s i j i' j' lon lat : 0 < gx s -> 0 < gy s ->
  in_cell g s i j lon lat -> in_cell g s i' j' lon lat -> i = i' /\ j = j'.
Proof.
  unfold in_cell. rewrite !floor_le, !floor_lt, !ceil_le, !ceil_lt.
  generalize (Qfloor lon) (Qceiling lat). intros x y. nia.
Qed.

Lemma c15_numbers_l g s nx ny lon lat : domain_ok g s nx ny -> one_sided g -> in_domain g lon lat ->
  exists n w t, getCellNum lon lat g s = Some n /\ 0 <= n <= maxCellNum g s /\ validCellNum n g s = true /\
    getCellLonLat n g s = Some (w, t) /\
    (inject_Z w <= lon /\ lon < inject_Z (w + gx s) /\ inject_Z (t - gy s) < lat /\ lat <= inject_Z t)%Q.
Proof.
  intros D O I. destruct (cell_num_val g s nx ny lon lat D O I) as (i & j & Hi & Hj & C & E).
  exists (i * nx + j), (xMin g + j * gx s), (yMax g - i * gy s).
  unfold maxCellNum, validCellNum, getCellLonLat. rewrite (lonCells_eq g s nx ny D), (latCells_eq g s nx ny D).
  destruct D as [H1 H2 H3 H4 H5 H6]. split; [exact E|]. split; [nia|].
  assert (E1 : (i * nx + j) / nx = i) by (rewrite Z.div_add_l, Z.div_small by lia; lia).
  assert (E2 : (i * nx + j) mod nx = j) by (rewrite Z.add_comm, Z.mod_add, Z.mod_small by lia; lia).
  rewrite E1, E2.
  replace (i * nx + j <? 0) with false by nia.
  replace (i * nx + j >? ny * nx - 1) with false by nia.
  replace ((i <? ny) && (j <? nx)) with true by lia.
  split; [reflexivity|]. split; [reflexivity|].
  unfold in_cell in C. replace (xMin g + j * gx s + gx s) with (xMin g + (j + 1) * gx s) by lia.
  replace (yMax g - i * gy s - gy s) with (yMax g - (i + 1) * gy s) by lia. exact C.
Qed.
Lemma c15_same_l g s nx ny lon lat lon' lat' : domain_ok g s nx ny -> one_sided g ->
  in_domain g lon lat -> in_domain g lon' lat' ->
  (getCellNum lon lat g s = getCellNum lon' lat' g s <->
   exists i j, in_cell g s i j lon lat /\ in_cell g s i j lon' lat').
Proof.
  intros D O I I'. destruct (cell_num_val g s nx ny lon lat D O I) as (i & j & Hi & Hj & C & ->).
  destruct (cell_num_val g s nx ny lon' lat' D O I') as (i' & j' & Hi' & Hj' & C' & ->).
  destruct D as [H1 H2 H3 H4 H5 H6]. split.
  - intros [= E]. assert (i = i' /\ j = j') as [<- <-] by (apply (Z.div_mod_unique nx); lia). eauto.
  - intros (a & b & A & B).
    destruct (cell_unique g s a b i j lon lat H1 H2 A C) as [-> ->].
    destruct (cell_unique g s i j i' j' lon' lat' H1 H2 B C') as [-> ->]. reflexivity.
Qed.
(** Every number from 0 to the maximum is the number of its own corner cell. *)
Lemma c15_inverse_l g s nx ny n : domain_ok g s nx ny -> one_sided g -> 0 <= n <= maxCellNum g s ->
  exists w t, getCellLonLat n g s = Some (w, t) /\ getCellNum (inject_Z w) (inject_Z t) g s = Some n.
Proof.
  intros D O Hn. pose proof D as [H1 H2 H3 H4 H5 H6].
  unfold maxCellNum in Hn. rewrite (lonCells_eq g s nx ny D), (latCells_eq g s nx ny D) in Hn.
  assert (Hi : 0 <= n / nx < ny) by nia. assert (Hj : 0 <= n mod nx < nx) by (apply Z.mod_pos_bound; lia).
  pose proof (Z.div_mod n nx ltac:(lia)) as En.
  exists (xMin g + (n mod nx) * gx s), (yMax g - (n / nx) * gy s).
  unfold getCellLonLat. rewrite (lonCells_eq g s nx ny D), (latCells_eq g s nx ny D).
  replace (n <? 0) with false by lia. replace ((n / nx <? ny) && (n mod nx <? nx)) with true by lia.
  split; [reflexivity|].
  set (i := n / nx) in *. set (j := n mod nx) in *. clearbody i j.
  destruct (cell_num_val g s nx ny (inject_Z (xMin g + j * gx s)) (inject_Z (yMax g - i * gy s)) D O) as (i' & j' & Hi' & Hj' & C & E).
  { unfold in_domain. rewrite <- !Zle_Qle, <- !Zlt_Qlt. nia. }
  rewrite E. unfold in_cell in C. rewrite <- !Zle_Qle, <- !Zlt_Qlt in C.
  assert (j' = j) as -> by nia. assert (i' = i) as -> by nia. f_equal. lia.
Qed.

(** Straddling domains *)
Lemma c15_collide_lon g s lat k : 0 < k -> xMin g <= - k -> k < xMax g ->
  getCellNum (inject_Z k) lat g s = getCellNum (inject_Z (- k)) lat g s.
Proof.
  intros Hk H1 H2. unfold getCellNum. rewrite !Qfloor_Z. rewrite Z.abs_opp.
  replace (k <? xMin g) with false by lia. replace (xMax g <=? k) with false by lia.
  replace (- k <? xMin g) with false by lia. replace (xMax g <=? - k) with false by lia. reflexivity.
Qed.
Lemma c15_collide_lat g s lon k : 0 < k -> yMin g < - k -> k <= yMax g ->
  getCellNum lon (inject_Z k) g s = getCellNum lon (inject_Z (- k)) g s.
Proof.
  intros Hk H1 H2. unfold getCellNum. rewrite !Qceiling_Z. rewrite Z.abs_opp.
  replace (k <=? yMin g) with false by lia. replace (yMax g <? k) with false by lia.
  replace (- k <=? yMin g) with false by lia. replace (yMax g <? - k) with false by lia. reflexivity.
Qed.

(** ** Growing windows *)
Lemma qlt_iff a b : qlt a b = true <-> (a < b)%Q.
Proof.
  unfold qlt. destruct (Qle_bool b a) eqn:E; cbn.
  - apply Qle_bool_iff in E. split; [discriminate|]. intros H. exfalso. eapply Qlt_not_le; eauto.
  - split; [|reflexivity]. intros _. apply Qnot_le_lt. intros C. apply Qle_bool_iff in C. congruence.
Qed.
Definition box_eq (a b : box) : Prop :=
  (wLon a == wLon b /\ eLon a == eLon b /\ nLat a == nLat b /\ sLat a == sLat b)%Q.
Lemma same_box_iff a b : same_box a b = true <-> box_eq a b.
Proof. unfold same_box, box_eq. rewrite !andb_true_iff, !Qeq_bool_iff. tauto. Qed.
Lemma in_box_iff b o : in_box b o = true <->
  (sLat b <= o_lat o /\ o_lat o < nLat b /\ wLon b <= o_lon o /\ o_lon o < eLon b)%Q.
Proof. unfold in_box. rewrite !andb_true_iff, !Qle_bool_iff, !qlt_iff. tauto. Qed.
Lemma in_box_eq a b o : box_eq a b -> in_box a o = in_box b o.
Proof.
  intros (H1 & H2 & H3 & H4). apply eq_true_iff_eq. rewrite !in_box_iff. rewrite H1, H2, H3, H4. tauto.
Qed.
Lemma sample_eq sel data a b : box_eq a b -> sample sel data a = sample sel data b.
Proof.
  intros H. unfold sample. f_equal. apply filter_ext. intros o. now rewrite (in_box_eq a b o H).
Qed.

Section Grow.
  Variables (xMn xMx yMn yMx ix iy : Q).
  Hypothesis Hix : (0 <= ix)%Q.
  Hypothesis Hiy : (0 <= iy)%Q.
  Variable sel : obs -> bool.
  Variable data : list obs.
  Variable b0 : box.
  Definition kq (k : nat) : Q := inject_Z (Z.of_nat k).
  (** The window after k expansions, in closed form. *)
  Definition window (k : nat) : box :=
    {| wLon := Qmax xMn (wLon b0 - kq k * ix); eLon := Qmin xMx (eLon b0 + kq k * ix);
       nLat := Qmin yMx (nLat b0 + kq k * iy); sLat := Qmax yMn (sLat b0 - kq k * iy) |}%Q.
  Hypothesis Hin : (xMn <= wLon b0 /\ eLon b0 <= xMx /\ nLat b0 <= yMx /\ yMn <= sLat b0)%Q.
  Notation smp := (sample sel data).
  Notation expand := (expandCell xMn xMx yMn yMx ix iy).

  Lemma kq_S k : (kq (S k) == kq k + 1)%Q.
  Proof. unfold kq. rewrite Nat2Z.inj_succ, <- Z.add_1_r, inject_Z_plus. reflexivity. Qed.
  Lemma kq_nonneg k : (0 <= kq k)%Q.
  Proof. unfold kq. change 0%Q with (inject_Z 0). rewrite <- Zle_Qle. lia. Qed.
  Lemma kq_le j k : (j <= k)%nat -> (kq j <= kq k)%Q.
  Proof. intros. unfold kq. rewrite <- Zle_Qle. lia. Qed.
  Lemma max_cases a b c : (c == Qmax a b <-> (a <= b /\ c == b) \/ (b <= a /\ c == a))%Q.
  Proof.
    destruct (Q.max_spec a b) as [[H E]|[H E]]; rewrite E; split; intros HH; try lra;
      destruct HH as [[? ?]|[? ?]]; lra.
  Qed.
  Lemma min_cases a b c : (c == Qmin a b <-> (a <= b /\ c == a) \/ (b <= a /\ c == b))%Q.
  Proof.
    destruct (Q.min_spec a b) as [[H E]|[H E]]; rewrite E; split; intros HH; try lra;
      destruct HH as [[? ?]|[? ?]]; lra.
  Qed.
  Lemma low_step lim x d d' inc y : (0 <= inc -> d' == d + inc -> y == Qmax lim (x - d) ->
    (if qlt (y - inc) lim then lim else y - inc) == Qmax lim (x - d'))%Q.
  Proof.
    intros H0 Hd Hy. apply max_cases. apply max_cases in Hy.
    destruct (qlt (y - inc) lim) eqn:E.
    - apply qlt_iff in E. right. destruct Hy as [[? ?]|[? ?]]; lra.
    - assert (~ (y - inc < lim)%Q) as N by (intros C; apply qlt_iff in C; congruence).
      apply Qnot_lt_le in N. destruct Hy as [[? ?]|[? ?]].
      + left. lra.
      + right. lra.
  Qed.
  Lemma high_step lim x d d' inc y : (0 <= inc -> d' == d + inc -> y == Qmin lim (x + d) ->
    (if qlt lim (y + inc) then lim else y + inc) == Qmin lim (x + d'))%Q.
  Proof.
    intros H0 Hd Hy. apply min_cases. apply min_cases in Hy.
    destruct (qlt lim (y + inc)) eqn:E.
    - apply qlt_iff in E. left. destruct Hy as [[? ?]|[? ?]]; lra.
    - assert (~ (lim < y + inc)%Q) as N by (intros C; apply qlt_iff in C; congruence).
      apply Qnot_lt_le in N. destruct Hy as [[? ?]|[? ?]].
      + left. lra.
      + right. lra.
  Qed.
  Lemma expand_window k b : box_eq b (window k) -> box_eq (expand b) (window (S k)).
  Proof.
    intros (H1 & H2 & H3 & H4). unfold window in *. cbn [wLon eLon nLat sLat] in *.
    unfold expandCell, checkGridLimits. cbn [wLon eLon nLat sLat]. pose proof (kq_S k) as K.
    assert (Kx : (kq (S k) * ix == kq k * ix + ix)%Q) by (rewrite K; ring).
    assert (Ky : (kq (S k) * iy == kq k * iy + iy)%Q) by (rewrite K; ring).
    unfold box_eq. cbn [wLon eLon nLat sLat].
    split; [eapply low_step; eauto|]. split; [eapply high_step; eauto|].
    split; [eapply high_step; eauto|]. eapply low_step; eauto.
  Qed.
  Lemma window_0 : box_eq b0 (window 0).
  Proof.
    destruct Hin as (H1 & H2 & H3 & H4). unfold box_eq, window, kq. cbn [wLon eLon nLat sLat]. cbn [Z.of_nat].
    change (inject_Z 0) with 0%Q.
    split; [apply max_cases; left; lra|]. split; [apply min_cases; right; lra|].
    split; [apply min_cases; right; lra|]. apply max_cases; left; lra.
  Qed.
  Lemma arch d inc : (0 <= inc)%Q -> exists N, forall k, (N <= k)%nat -> (inc == 0 \/ d <= kq k * inc)%Q.
  Proof.
    intros H. destruct (Qlt_le_dec 0 inc) as [Hp|Hn].
    - exists (Z.to_nat (Qceiling (d / inc))). intros k Hk. right.
      pose proof (Qle_ceiling (d / inc)) as Hc.
      assert (Hk' : (inject_Z (Qceiling (d / inc)) <= kq k)%Q) by (unfold kq; rewrite <- Zle_Qle; lia).
      assert (Hd : (d / inc <= kq k)%Q) by lra.
      setoid_replace d with (d / inc * inc)%Q by (field; lra).
      apply Qmult_le_compat_r; lra.
    - exists 0%nat. intros. left. lra.
  Qed.
  Lemma low_stable lim x d d' inc : (0 <= inc -> d' == d + inc -> (inc == 0 \/ x - lim <= d) ->
    Qmax lim (x - d') == Qmax lim (x - d))%Q.
  Proof.
    intros H0 Hd H. apply max_cases. destruct (Q.max_spec lim (x - d')) as [[A E]|[A E]]; rewrite E; clear E;
    destruct H as [H|H]; try (left; lra); right; lra.
  Qed.
  Lemma high_stable lim x d d' inc : (0 <= inc -> d' == d + inc -> (inc == 0 \/ lim - x <= d) ->
    Qmin lim (x + d') == Qmin lim (x + d))%Q.
  Proof.
    intros H0 Hd H. apply min_cases. destruct (Q.min_spec lim (x + d')) as [[A E]|[A E]]; rewrite E; clear E;
    destruct H as [H|H]; try (left; lra); right; lra.
  Qed.
  Lemma stable_from : exists N, forall k, (N <= k)%nat -> box_eq (window (S k)) (window k).
  Proof.
    destruct (arch (wLon b0 - xMn) ix Hix) as (N1 & A1). destruct (arch (xMx - eLon b0) ix Hix) as (N2 & A2).
    destruct (arch (yMx - nLat b0) iy Hiy) as (N3 & A3). destruct (arch (sLat b0 - yMn) iy Hiy) as (N4 & A4).
    exists (N1 + N2 + N3 + N4)%nat. intros k Hk. pose proof (kq_S k) as K.
    assert (Kx : (kq (S k) * ix == kq k * ix + ix)%Q) by (rewrite K; ring).
    assert (Ky : (kq (S k) * iy == kq k * iy + iy)%Q) by (rewrite K; ring).
    unfold box_eq, window. cbn [wLon eLon nLat sLat].
    split; [apply low_stable with (inc := ix); auto; apply A1; lia|].
    split; [apply high_stable with (inc := ix); auto; apply A2; lia|].
    split; [apply high_stable with (inc := iy); auto; apply A3; lia|].
    apply low_stable with (inc := iy); auto; apply A4; lia.
  Qed.
  Lemma low_mono lim x d d' : (d <= d' -> Qmax lim (x - d') <= Qmax lim (x - d))%Q.
  Proof.
    intros H. destruct (Q.max_spec lim (x - d)) as [[A E]|[A E]]; rewrite E; clear E;
    destruct (Q.max_spec lim (x - d')) as [[B E]|[B E]]; rewrite E; lra.
  Qed.
  Lemma high_mono lim x d d' : (d <= d' -> Qmin lim (x + d) <= Qmin lim (x + d'))%Q.
  Proof.
    intros H. destruct (Q.min_spec lim (x + d)) as [[A E]|[A E]]; rewrite E; clear E;
    destruct (Q.min_spec lim (x + d')) as [[B E]|[B E]]; rewrite E; lra.
  Qed.
  Lemma window_mono j k o : (j <= k)%nat -> in_box (window j) o = true -> in_box (window k) o = true.
  Proof.
    intros Hjk. rewrite !in_box_iff. unfold window. cbn [wLon eLon nLat sLat].
    pose proof (kq_le j k Hjk) as K.
    assert (Kx : (kq j * ix <= kq k * ix)%Q) by now apply Qmult_le_compat_r.
    assert (Ky : (kq j * iy <= kq k * iy)%Q) by now apply Qmult_le_compat_r.
    pose proof (low_mono xMn (wLon b0) _ _ Kx). pose proof (high_mono xMx (eLon b0) _ _ Kx).
    pose proof (high_mono yMx (nLat b0) _ _ Ky). pose proof (low_mono yMn (sLat b0) _ _ Ky).
    intros (H1' & H2' & H3' & H4'). repeat split; lra.
  Qed.

  (** Consecutive equal windows: from then on all are equal. *)
  Lemma low_fix lim x d inc : (0 <= inc -> Qmax lim (x - (d + inc)) == Qmax lim (x - d) ->
    inc == 0 \/ x - d <= lim)%Q.
  Proof.
    intros H0 H. destruct (Q.max_spec lim (x - d)) as [[A E]|[A E]]; rewrite E in H; [|right; lra].
    destruct (Q.max_spec lim (x - (d + inc))) as [[B F]|[B F]]; rewrite F in H; [left; lra|right; lra].
  Qed.
  Lemma high_fix lim x d inc : (0 <= inc -> Qmin lim (x + (d + inc)) == Qmin lim (x + d) ->
    inc == 0 \/ lim <= x + d)%Q.
  Proof.
    intros H0 H. destruct (Q.min_spec lim (x + d)) as [[A E]|[A E]]; rewrite E in H; [right; lra|].
    destruct (Q.min_spec lim (x + (d + inc))) as [[B F]|[B F]]; rewrite F in H; [right; lra|left; lra].
  Qed.
  Lemma fix_sides k : box_eq (window (S k)) (window k) ->
    ((ix == 0 \/ wLon b0 - kq k * ix <= xMn) /\ (ix == 0 \/ xMx <= eLon b0 + kq k * ix) /\
     (iy == 0 \/ yMx <= nLat b0 + kq k * iy) /\ (iy == 0 \/ sLat b0 - kq k * iy <= yMn))%Q.
  Proof.
    intros (H1 & H2 & H3 & H4). unfold window in *. cbn [wLon eLon nLat sLat] in *. pose proof (kq_S k) as K.
    assert (Kx : (kq (S k) * ix == kq k * ix + ix)%Q) by (rewrite K; ring).
    assert (Ky : (kq (S k) * iy == kq k * iy + iy)%Q) by (rewrite K; ring).
    rewrite Kx in H1, H2. rewrite Ky in H3, H4.
    split; [apply low_fix with (1 := Hix) in H1; lra|]. split; [apply high_fix with (1 := Hix) in H2; lra|].
    split; [apply high_fix with (1 := Hiy) in H3; lra|]. apply low_fix with (1 := Hiy) in H4; lra.
  Qed.
  Lemma fix_all k : box_eq (window (S k)) (window k) -> forall j, (k <= j)%nat -> box_eq (window j) (window k).
  Proof.
    intros H. apply fix_sides in H as (F1 & F2 & F3 & F4). intros j Hj.
    pose proof (kq_le k j Hj) as K.
    assert (Kx : (kq k * ix <= kq j * ix)%Q) by now apply Qmult_le_compat_r.
    assert (Ky : (kq k * iy <= kq j * iy)%Q) by now apply Qmult_le_compat_r.
    unfold box_eq, window. cbn [wLon eLon nLat sLat].
    assert (Zx : (ix == 0 -> kq j * ix == kq k * ix)%Q) by (intros E; rewrite E; ring).
    assert (Zy : (iy == 0 -> kq j * iy == kq k * iy)%Q) by (intros E; rewrite E; ring).
    split; [|split; [|split]].
    - destruct F1 as [F|F]; [rewrite (Zx F); reflexivity|]. rewrite !Q.max_l by lra. reflexivity.
    - destruct F2 as [F|F]; [rewrite (Zx F); reflexivity|]. rewrite !Q.min_l by lra. reflexivity.
    - destruct F3 as [F|F]; [rewrite (Zy F); reflexivity|]. rewrite !Q.min_l by lra. reflexivity.
    - destruct F4 as [F|F]; [rewrite (Zy F); reflexivity|]. rewrite !Q.max_l by lra. reflexivity.
  Qed.

  Section Loop.
    Variable bad : list Q -> bool.
    Definition grow_ok (k : nat) (r : outcome) : Prop :=
      match r with
      | Sample p b => exists k', (k <= k')%nat /\ box_eq b (window k') /\ p = smp (window k') /\
          bad p = false /\ forall j, (k <= j < k')%nat -> bad (smp (window j)) = true
      | Exhausted => (exists k', (k <= k')%nat /\ box_eq (window (S k')) (window k')) /\
          forall j, (k <= j)%nat -> bad (smp (window j)) = true
      | OutOfFuel => False
      end.
    Lemma grow_spec N : (forall k, (N <= k)%nat -> box_eq (window (S k)) (window k)) ->
      forall fuel k b, (N + 1 <= k + fuel)%nat -> (k <= N \/ 1 <= fuel)%nat -> box_eq b (window k) ->
      grow_ok k (grow xMn xMx yMn yMx ix iy sel data bad fuel b).
    Proof.
      intros HN. induction fuel as [|fuel IH]; intros k b Hf Hk Hb.
      - exfalso. lia.
      - cbn [grow]. rewrite (sample_eq sel data b (window k) Hb).
        destruct (bad (smp (window k))) eqn:Eb.
        + pose proof (expand_window k b Hb) as Hb'.
          destruct (same_box (expand b) b) eqn:Es.
          * apply same_box_iff in Es. cbn [grow_ok].
            assert (Hfix : box_eq (window (S k)) (window k)).
            { unfold box_eq in *. intuition (etransitivity; [symmetry; eassumption|]; etransitivity; eassumption). }
            split; [exists k; auto|]. intros j Hj. rewrite (sample_eq _ _ _ _ (fix_all k Hfix j Hj)). exact Eb.
          * assert (Hlt : (k < N)%nat).
            { apply Nat.nle_gt. intros C. apply HN in C.
              assert (box_eq (expand b) b).
              { unfold box_eq in *. intuition (etransitivity; [eassumption|]; etransitivity; [eassumption|symmetry; assumption]). }
              apply same_box_iff in H. congruence. }
            specialize (IH (S k) (expand b) ltac:(lia) ltac:(lia) Hb').
            destruct (grow _ _ _ _ _ _ _ _ _ _ _) as [p b'| |]; cbn [grow_ok] in *; auto.
            -- destruct IH as (k' & A & B & C & D & E). exists k'. split; [lia|].
               split; [exact B|]. split; [exact C|]. split; [exact D|].
               intros j Hj. destruct (Nat.eq_dec j k) as [->|]; [exact Eb|apply E; lia].
            -- destruct IH as ((k' & A & B) & C). split; [exists k'; split; [lia|exact B]|].
               intros j Hj. destruct (Nat.eq_dec j k) as [->|]; [exact Eb|apply C; lia].
        + cbn [grow_ok]. exists k. split; [lia|]. split; [exact Hb|]. split; [reflexivity|]. split; [exact Eb|].
          intros; lia.
    Qed.
  End Loop.

  (** Samples of larger windows. *)
  Lemma filter_len_mono {A} (p q : A -> bool) l : (forall x, p x = true -> q x = true) ->
    (length (filter p l) <= length (filter q l))%nat.
  Proof.
    intros H. induction l as [|x l IH]; cbn; [lia|].
    destruct (p x) eqn:E; [rewrite (H x E); cbn; lia|]. destruct (q x); cbn; lia.
  Qed.
  Definition has_val (o : obs) : bool := match o_val o with Some _ => true | None => false end.
  Lemma keep_len l : length (keep_vals l) = length (filter has_val l).
  Proof.
    unfold keep_vals, has_val. induction l as [|o l IH]; cbn; [reflexivity|]. destruct (o_val o); cbn; congruence.
  Qed.
  Lemma filter_filter {A} (p q : A -> bool) l : filter p (filter q l) = filter (fun x => q x && p x) l.
  Proof. induction l as [|x l IH]; cbn; [reflexivity|]. destruct (q x); cbn; [destruct (p x)|]; congruence. Qed.
  Lemma smp_len_mono j k : (j <= k)%nat -> (length (smp (window j)) <= length (smp (window k)))%nat.
  Proof.
    intros H. unfold sample. rewrite !keep_len, !filter_filter. apply filter_len_mono. intros o.
    rewrite !andb_true_iff. intros [[A B] C]. split; [|exact C]. split; [|exact B]. eapply window_mono; eauto.
  Qed.
  Lemma smp_incl j k x : (j <= k)%nat -> In x (smp (window j)) -> In x (smp (window k)).
  Proof.
    intros H. unfold sample, keep_vals. rewrite !in_flat_map. intros (o & Ho & Hx). exists o. split; [|exact Hx].
    apply filter_In in Ho as [H1 H2]. apply filter_In. split; [exact H1|].
    apply andb_true_iff in H2 as [H2 H3]. apply andb_true_iff. split; [|exact H3]. eapply window_mono; eauto.
  Qed.
  (** Two values differ. *)
  Definition varied (p : list Q) : Prop := exists x y, In x p /\ In y p /\ ~ (x == y)%Q.
  Lemma all_same_false p : p <> [] -> (all_same p = false <-> varied p).
  Proof.
    intros Hn. destruct p as [|x p]; [congruence|]. cbn. split.
    - intros H. assert (E : exists y, In y p /\ Qeq_bool y x = false).
      { clear Hn. induction p as [|y p IH]; cbn in H; [discriminate|].
        destruct (Qeq_bool y x) eqn:E; cbn in H; [destruct (IH H) as (z & ? & ?); exists z; split; [now right|auto]|exists y; split; [now left|auto]]. }
      destruct E as (y & Hy & E). exists x, y. split; [now left|]. split; [now right|].
      intros C. symmetry in C. apply Qeq_bool_iff in C. congruence.
    - intros (a & b & Ha & Hb & N). destruct (forallb _ p) eqn:E; [|reflexivity]. exfalso.
      rewrite forallb_forall in E.
      assert (G : forall z, In z (x :: p) -> (z == x)%Q).
      { intros z [<-|Hz]; [reflexivity|]. apply Qeq_bool_iff. now apply E. }
      apply N. rewrite (G a Ha), (G b Hb). reflexivity.
  Qed.

  Variable minSample : nat.
  Definition qualifies (k : nat) : Prop := (minSample < length (smp (window k)))%nat /\ varied (smp (window k)).
  Definition domain_box : box := {| wLon := xMn; eLon := xMx; nLat := yMx; sLat := yMn |}.

  Lemma extract_spec : exists N, forall fuel, (N <= fuel)%nat ->
    match extract xMn xMx yMn yMx ix iy sel data minSample fuel b0 with
    | Sample p b => exists k, box_eq b (window k) /\ p = smp (window k) /\ qualifies k /\
                              forall j, (j < k)%nat -> ~ qualifies j
    | Exhausted => (forall j, ~ qualifies j) /\
        ((0 < ix)%Q -> (0 < iy)%Q -> exists k, box_eq (window k) domain_box)
    | OutOfFuel => False
    end.
  Proof.
    destruct stable_from as (N & HN). exists (N + 1)%nat. intros fuel Hf. unfold extract.
    pose proof (grow_spec (too_few minSample) N HN fuel 0 b0 ltac:(lia) ltac:(lia) window_0) as G1.
    assert (Dom : (exists k', (0 <= k')%nat /\ box_eq (window (S k')) (window k')) ->
                  (0 < ix)%Q -> (0 < iy)%Q -> exists k, box_eq (window k) domain_box).
    { intros (k' & _ & F) Px Py. exists k'. apply fix_sides in F as (F1 & F2 & F3 & F4).
      unfold box_eq, window, domain_box. cbn [wLon eLon nLat sLat].
      split; [apply Q.max_l; lra|]. split; [apply Q.min_l; lra|]. split; [apply Q.min_l; lra|apply Q.max_l; lra]. }
    destruct (grow xMn xMx yMn yMx ix iy sel data (too_few minSample) fuel b0) as [p1 b1| |]; cbn [grow_ok] in G1; [| |exact G1].
    - destruct G1 as (k1 & _ & B1 & P1 & Q1 & M1).
      assert (L1 : forall k, (k1 <= k)%nat -> (minSample < length (smp (window k)))%nat).
      { intros k Hk. pose proof (smp_len_mono k1 k Hk). subst p1. unfold too_few in Q1. lia. }
      assert (NE : forall k, (k1 <= k)%nat -> smp (window k) <> []).
      { intros k Hk E. specialize (L1 k Hk). rewrite E in L1. cbn in L1. lia. }
      assert (M1' : forall j, (j < k1)%nat -> ~ qualifies j).
      { intros j Hj [C _]. specialize (M1 j ltac:(lia)). unfold too_few in M1. lia. }
      pose proof (grow_spec all_same N HN fuel k1 b1 ltac:(lia) ltac:(lia) B1) as G2.
      destruct (grow xMn xMx yMn yMx ix iy sel data all_same fuel b1) as [p2 b2| |]; cbn [grow_ok] in G2; [| |exact G2].
      + destruct G2 as (k2 & H2 & B2 & P2 & Q2 & M2). exists k2. split; [exact B2|]. split; [exact P2|].
        split.
        * split; [now apply L1|]. subst p2. apply all_same_false; [now apply NE|exact Q2].
        * intros j Hj. destruct (Nat.lt_ge_cases j k1) as [C|C]; [now apply M1'|].
          intros [_ V]. apply all_same_false in V; [|now apply NE]. rewrite M2 in V by lia. discriminate.
      + destruct G2 as ((k' & A & F) & M2). split; [|apply Dom; exists k'; split; [lia|exact F]].
        intros j. destruct (Nat.lt_ge_cases j k1) as [C|C]; [now apply M1'|].
        intros [_ V]. apply all_same_false in V; [|now apply NE]. rewrite M2 in V by lia. discriminate.
    - destruct G1 as ((k' & A & F) & M). split; [|apply Dom; exists k'; auto].
      intros j [C _]. specialize (M j ltac:(lia)). unfold too_few in M. lia.
  Qed.
  Lemma window_inside k o : in_box (window k) o = true -> in_box domain_box o = true.
  Proof.
    rewrite !in_box_iff. unfold window, domain_box. cbn [wLon eLon nLat sLat].
    pose proof (Q.le_max_l xMn (wLon b0 - kq k * ix)). pose proof (Q.le_min_l xMx (eLon b0 + kq k * ix)).
    pose proof (Q.le_min_l yMx (nLat b0 + kq k * iy)). pose proof (Q.le_max_l yMn (sLat b0 - kq k * iy)).
    intros (H1' & H2' & H3' & H4'). repeat split; lra.
  Qed.
  Lemma window_contains k o : in_box b0 o = true -> in_box (window k) o = true.
  Proof. rewrite (in_box_eq _ _ o window_0). apply window_mono. lia. Qed.
End Grow.

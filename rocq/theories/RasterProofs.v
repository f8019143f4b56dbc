(** Proofs about RasterModel.v. *)
From Coq Require Import List Arith ZArith Lia Bool QArith Qround Reals Qreals Lra Psatz Lqa String.
From Verif Require Import CircleModel CircleProofs WindModel WindProofs5 SphereModel SphereProofs CellModel CellProofs GenProofs
  UtilModel UtilProofs MultModel RasterModel.
Import ListNotations.
Close Scope string_scope. Close Scope Q_scope. Open Scope list_scope. Open Scope R_scope.

(** * Directions *)
Lemma same_angle a b : 0 <= a < 2 * PI -> 0 <= b < 2 * PI -> sin a = sin b -> cos a = cos b -> a = b.
Proof.
  intros A B S C. set (h := (a - b) / 2).
  assert (E : cos (a - b) = 1) by (rewrite cos_minus, S, C; pose proof (sin2_cos2 b) as T; unfold Rsqr in T; Lra.lra).
  replace (a - b) with (2 * h) in E by (unfold h; field). rewrite cos_2a_sin in E.
  assert (Z : sin h = 0) by Lra.nra.
  destruct (Rtotal_order h 0) as [L|[L|L]].
  - pose proof (sin_gt_0 (- h) ltac:(Lra.lra) ltac:(unfold h in *; Lra.lra)) as P. rewrite sin_neg in P. Lra.lra.
  - unfold h in L. Lra.lra.
  - pose proof (sin_gt_0 h ltac:(Lra.lra) ltac:(unfold h in *; Lra.lra)) as P. Lra.lra.
Qed.
Lemma bearing_theta uu vv : calculateBearing uu vv = 180 / PI * theta2bearing (atan2 (- vv) (- uu)).
Proof. reflexivity. Qed.
Lemma bearing_from (s a : R) : 0 < s -> 0 <= a < 2 * PI -> calculateBearing (- (s * sin a)) (- (s * cos a)) = 180 / PI * a.
Proof.
  intros P A. rewrite bearing_theta, !Ropp_involutive.
  pose proof (atan2_spec (s * cos a) (s * sin a)) as [X Y].
  replace ((s * cos a) ^ 2 + (s * sin a) ^ 2) with (s * s) in X, Y
    by (pose proof (sin2_cos2 a) as T; unfold Rsqr in T; replace ((s * cos a) ^ 2 + (s * sin a) ^ 2) with (s * s * (sin a * sin a + cos a * cos a)) by ring; rewrite T; ring).
  rewrite sqrt_square in X, Y by Lra.lra. apply Rmult_eq_reg_l in X; [|Lra.lra]. apply Rmult_eq_reg_l in Y; [|Lra.lra].
  destruct (bearing_dir (atan2 (s * cos a) (s * sin a))) as [D E]. f_equal.
  apply same_angle; [apply rmod_range, PI2_pos | exact A | congruence | congruence].
Qed.

(** * Rasters *)
Close Scope R_scope. Open Scope Q_scope.
Definition qi (n : nat) : Q := inject_Z (Z.of_nat n).
Lemma pixel_up o d p k : 0 < d -> o + inject_Z k * d <= p -> p < o + (inject_Z k + 1) * d -> pixel o d p = k.
Proof.
  intros D L U. unfold pixel.
  assert (E : p - o == ((p - o) / d) * d) by (field; lra). set (q := (p - o) / d) in *. clearbody q.
  assert (A : inject_Z k <= q). { apply Qmult_le_r with (z := d); lra. }
  assert (B : q < inject_Z (k + 1)). { rewrite inject_Z_plus. apply Qmult_lt_r with (z := d); [lra|]. change (inject_Z 1) with 1. lra. }
  apply floor_le in A. apply floor_lt in B. lia.
Qed.
Lemma pixel_down o d p k : 0 < d -> o - (inject_Z k + 1) * d < p -> p <= o - inject_Z k * d -> pixel o (- d) p = k.
Proof.
  intros D L U. unfold pixel.
  assert (E : o - p == ((p - o) / - d) * d) by (field; lra). set (q := (p - o) / - d) in *. clearbody q.
  assert (A : inject_Z k <= q). { apply Qmult_le_r with (z := d); lra. }
  assert (B : q < inject_Z (k + 1)). { rewrite inject_Z_plus. apply Qmult_lt_r with (z := d); [lra|]. change (inject_Z 1) with 1. lra. }
  apply floor_le in A. apply floor_lt in B. lia.
Qed.
Lemma pixel_comp o o' d d' p p' : o == o' -> d == d' -> p == p' -> pixel o d p = pixel o' d' p'.
Proof. intros A B C. unfold pixel. apply Qfloor_comp. now rewrite A, B, C. Qed.

(** Coordinates with constant spacing *)
Definition regular (l : list Q) (o d : Q) : Prop := forall i y, nth_error l i = Some y -> y == o + qi i * d.
Lemma nth_error_rev {A} (l : list A) i : (i < List.length l)%nat -> nth_error (rev l) i = nth_error l (List.length l - 1 - i).
Proof.
  intros H. destruct (nth_error l (List.length l - 1 - i)) as [a|] eqn:E; [|apply nth_error_None in E; lia].
  rewrite (nth_error_nth' (rev l) a) by (rewrite rev_length; lia). rewrite rev_nth by lia.
  replace (List.length l - S i)%nat with (List.length l - 1 - i)%nat by lia. f_equal. now apply nth_error_nth.
Qed.
Section R.
  Context {A : Type}.
  Lemma at_up (r : raster A) px py (i j : nat) row v : 0 < pixelX r -> 0 < pixelY r ->
    nth_error (band r) i = Some row -> nth_error row j = Some v ->
    originX r + qi j * pixelX r <= px -> px < originX r + (qi j + 1) * pixelX r ->
    originY r + qi i * pixelY r <= py -> py < originY r + (qi i + 1) * pixelY r -> at_ r px py = Some v.
  Proof.
    intros Dx Dy R V X1 X2 Y1 Y2. unfold at_. rewrite (pixel_up _ _ px (Z.of_nat j)) by auto. rewrite (pixel_up _ _ py (Z.of_nat i)) by auto.
    cbv zeta. replace ((Z.of_nat j <? 0) || (Z.of_nat i <? 0))%Z with false by (symmetry; apply orb_false_iff; split; apply Z.ltb_ge; lia).
    now rewrite !Nat2Z.id, R.
  Qed.
  Lemma at_down (r : raster A) d px py (i j : nat) row v : 0 < pixelX r -> 0 < d -> pixelY r == - d ->
    nth_error (band r) i = Some row -> nth_error row j = Some v ->
    originX r + qi j * pixelX r <= px -> px < originX r + (qi j + 1) * pixelX r ->
    originY r - (qi i + 1) * d < py -> py <= originY r - qi i * d -> at_ r px py = Some v.
  Proof.
    intros Dx Dy E R V X1 X2 Y1 Y2. unfold at_. rewrite (pixel_up _ _ px (Z.of_nat j)) by auto.
    rewrite (pixel_comp (originY r) (originY r) (pixelY r) (- d) py py) by (auto; reflexivity).
    rewrite (pixel_down _ _ py (Z.of_nat i)) by auto.
    cbv zeta. replace ((Z.of_nat j <? 0) || (Z.of_nat i <? 0))%Z with false by (symmetry; apply orb_false_iff; split; apply Z.ltb_ge; lia).
    now rewrite !Nat2Z.id, R.
  Qed.
  Lemma at_below (r : raster A) px py : 0 < pixelY r -> py < originY r -> at_ r px py = None.
  Proof.
    intros D L. unfold at_. cbv zeta. replace (pixel (originY r) (pixelY r) py <? 0)%Z with true; [now rewrite orb_true_r|].
    symmetry. apply Z.ltb_lt. unfold pixel. apply floor_lt.
    assert (E : py - originY r == ((py - originY r) / pixelY r) * pixelY r) by (field; lra). set (q := (py - originY r) / pixelY r) in *. clearbody q.
    change (inject_Z 0) with 0. apply Qmult_lt_r with (z := pixelY r); lra.
  Qed.
  Lemma at_left (r : raster A) px py : 0 < pixelX r -> px < originX r -> at_ r px py = None.
  Proof.
    intros D L. unfold at_. cbv zeta. replace (pixel (originX r) (pixelX r) px <? 0)%Z with true; [reflexivity|].
    symmetry. apply Z.ltb_lt. unfold pixel. apply floor_lt.
    assert (E : px - originX r == ((px - originX r) / pixelX r) * pixelX r) by (field; lra). set (q := (px - originX r) / pixelX r) in *. clearbody q.
    change (inject_Z 0) with 0. apply Qmult_lt_r with (z := pixelX r); lra.
  Qed.
  (** Something is found only in a pixel *)
  Lemma at_some (r : raster A) px py v : 0 < pixelX r -> 0 < pixelY r -> at_ r px py = Some v ->
    exists i j row, nth_error (band r) i = Some row /\ nth_error row j = Some v /\
      originX r + qi j * pixelX r <= px /\ px < originX r + (qi j + 1) * pixelX r /\
      originY r + qi i * pixelY r <= py /\ py < originY r + (qi i + 1) * pixelY r.
  Proof.
    intros Dx Dy. unfold at_. cbv zeta. set (c := pixel (originX r) (pixelX r) px). set (l := pixel (originY r) (pixelY r) py).
    destruct ((c <? 0) || (l <? 0))%Z eqn:E; [discriminate|]. apply orb_false_iff in E. destruct E as [E1 E2].
    apply Z.ltb_ge in E1, E2. destruct (nth_error (band r) (Z.to_nat l)) as [row|] eqn:Er; [|discriminate]. intros V.
    assert (B : forall o d p k, 0 < d -> (0 <= k)%Z -> k = pixel o d p -> o + qi (Z.to_nat k) * d <= p /\ p < o + (qi (Z.to_nat k) + 1) * d).
    { intros o d p k D K ->. unfold qi. rewrite Z2Nat.id by auto. unfold pixel in *.
      pose proof (Qfloor_le ((p - o) / d)) as F1. pose proof (Qlt_floor ((p - o) / d)) as F2. rewrite inject_Z_plus in F2. change (inject_Z 1) with 1 in F2.
      set (f := inject_Z (Qfloor ((p - o) / d))) in *. clearbody f.
      assert (X : p - o == ((p - o) / d) * d) by (field; lra). set (q := (p - o) / d) in *. clearbody q.
      apply Qmult_le_r with (z := d) in F1; [|lra]. apply Qmult_lt_r with (z := d) in F2; [|lra]. lra. }
    destruct (B _ _ _ c Dx E1 eq_refl). destruct (B _ _ _ l Dy E2 eq_refl).
    exists (Z.to_nat l), (Z.to_nat c), row. repeat split; auto.
  Qed.

  Lemma last_error_map (f : Q -> Q) l : last_error (map f l) = option_map f (last_error l).
  Proof. unfold last_error. rewrite map_length. apply nth_error_map. Qed.
  Lemma last_error_rev (l : list Q) : l <> [] -> last_error (rev l) = nth_error l 0.
  Proof.
    intros H. unfold last_error. rewrite rev_length. destruct l as [|a l]; [congruence|].
    rewrite nth_error_rev by (cbn [List.length]; lia). f_equal. lia.
  Qed.
  (** The raster of processMult for regular longitudes *)
  Lemma process_spec (array : list (list A)) lon lat x0 d yl : 0 < d -> regular lon x0 d -> (2 <= List.length lon)%nat ->
    last_error lat = Some yl ->
    exists r, processRaster array lon lat = Some r /\ originX r == x0 - d / 2 /\ originY r == yl - d / 2 /\
      pixelX r == d /\ pixelY r == d /\ band r = rev array.
  Proof.
    intros D Rl L Y. unfold processRaster, shifted.
    destruct (nth_error lon 0) as [a|] eqn:E0; [|apply nth_error_None in E0; lia].
    destruct (nth_error lon 1) as [b|] eqn:E1; [|apply nth_error_None in E1; lia].
    pose proof (Rl _ _ E0) as A0. pose proof (Rl _ _ E1) as A1. unfold qi in A0, A1. cbn [Z.of_nat Pos.of_succ_nat] in A0, A1.
    change (inject_Z 0) with 0 in A0. change (inject_Z 1) with 1 in A1.
    unfold windRaster. rewrite !nth_error_map, E0, E1. cbn [option_map]. unfold createRaster.
    rewrite nth_error_map, E0. cbn [option_map]. rewrite last_error_map, Y. cbn [option_map].
    set (w := b - (b - a) / 2 - (a - (b - a) / 2)). assert (W : w == d) by (unfold w; lra).
    replace (Qeq_bool w 0) with false.
    2:{ symmetry. apply not_true_iff_false. intros Q. apply Qeq_bool_iff in Q. lra. }
    replace (qlt 0 w) with true by (symmetry; apply qlt_iff; lra).
    eexists. split; [reflexivity|]. cbn [originX originY pixelX pixelY band].
    assert (H : b - a == d) by lra. repeat split; auto; rewrite H; [|reflexivity]. rewrite A0. ring.
  Qed.
  Lemma at_main (r : raster A) px py (i j : nat) row v x0 y0 d : 0 < d -> originX r == x0 - d / 2 -> originY r == y0 - d / 2 -> pixelX r == d -> pixelY r == d ->
    nth_error (band r) i = Some row -> nth_error row j = Some v ->
    x0 + qi j * d - d / 2 <= px -> px < x0 + qi j * d + d / 2 ->
    y0 + qi i * d - d / 2 <= py -> py < y0 + qi i * d + d / 2 -> at_ r px py = Some v.
  Proof.
    intros D Ox Oy Px Py R V X1 X2 Y1 Y2. apply at_up with (i := i) (j := j) (row := row); auto; rewrite ?Ox, ?Oy, ?Px, ?Py; try lra.
    - assert (E : x0 - d / 2 + (qi j + 1) * d == x0 + qi j * d + d / 2) by field. rewrite E. exact X2.
    - assert (E : y0 - d / 2 + (qi i + 1) * d == y0 + qi i * d + d / 2) by field. rewrite E. exact Y2.
  Qed.
End R.

(** C135, C136: the sea level pressure at a day and position. *)
From Coq Require Import List Arith ZArith Lia Bool QArith Qround Qabs Lqa.
From Verif Require Import CellModel CellProofs GenProofs MslpModel.
Local Notation qn := MslpModel.qn.
Import ListNotations.
Open Scope Q_scope.

Lemma qn_pos n : (0 < n)%nat -> 0 < qn n.
Proof. intros H. unfold qn, Qlt. cbn. lia. Qed.
Lemma qn_le n m : (n <= m)%nat -> qn n <= qn m.
Proof. intros H. unfold qn. rewrite <- Zle_Qle. lia. Qed.
Lemma qn_S n : qn (S n) == qn n + 1.
Proof. unfold qn. rewrite Nat2Z.inj_succ. unfold Z.succ. now rewrite inject_Z_plus. Qed.
Lemma qn_minus n : (0 < n)%nat -> qn (n - 1) == qn n - 1.
Proof. intros H. destruct n as [|n]; [lia|]. rewrite qn_S. replace (S n - 1)%nat with n by lia. ring. Qed.
Lemma floor_bounds x : inject_Z (Qfloor x) <= x /\ x < inject_Z (Qfloor x) + 1.
Proof. split; [apply Qfloor_le|]. pose proof (Qlt_floor x) as H. rewrite inject_Z_plus in H. exact H. Qed.

Lemma wrap_range n x : (2 <= n)%nat -> 0 <= wrap n x <= qn (n - 1).
Proof.
  intros H. unfold wrap. replace (n <=? 1)%nat with false by (symmetry; apply Nat.leb_gt; lia). cbv zeta.
  pose proof (qn_pos (n - 1) ltac:(lia)) as P. set (sz := qn (n - 1)) in *. clearbody sz.
  destruct (qlt x 0) eqn:E.
  - apply qlt_iff in E. destruct (floor_bounds (- x / sz)) as [F1 F2]. set (f := inject_Z (Qfloor (- x / sz))) in *. clearbody f.
    assert (X : - x == sz * (- x / sz)) by (field; lra). set (y := - x / sz) in *. clearbody y.
    assert (0 <= sz * (y - f)) by (apply Qmult_le_0_compat; lra). assert (0 <= sz * (f + 1 - y)) by (apply Qmult_le_0_compat; lra).
    split; lra.
  - apply qlt_false_iff in E. destruct (qlt sz x) eqn:E2.
    + apply qlt_iff in E2. destruct (floor_bounds (x / sz)) as [F1 F2]. set (f := inject_Z (Qfloor (x / sz))) in *. clearbody f.
      assert (X : x == sz * (x / sz)) by (field; lra). set (y := x / sz) in *. clearbody y.
      assert (0 <= sz * (y - f)) by (apply Qmult_le_0_compat; lra). assert (0 <= sz * (f + 1 - y)) by (apply Qmult_le_0_compat; lra).
      split; lra.
    + apply qlt_false_iff in E2. lra.
Qed.
Lemma wrap_in n x : (2 <= n)%nat -> 0 <= x <= qn (n - 1) -> wrap n x = x.
Proof.
  intros H [H1 H2]. unfold wrap. replace (n <=? 1)%nat with false by (symmetry; apply Nat.leb_gt; lia). cbv zeta.
  replace (qlt x 0) with false by (symmetry; apply qlt_false_iff; lra).
  replace (qlt (qn (n - 1)) x) with false by (symmetry; apply qlt_false_iff; lra). reflexivity.
Qed.
Lemma wrap_over n x : (2 <= n)%nat -> qn (n - 1) < x -> x < 2 * qn (n - 1) -> wrap n x == x - qn (n - 1).
Proof.
  intros H H1 H2. unfold wrap. replace (n <=? 1)%nat with false by (symmetry; apply Nat.leb_gt; lia). cbv zeta.
  pose proof (qn_pos (n - 1) ltac:(lia)) as P. set (sz := qn (n - 1)) in *. clearbody sz.
  replace (qlt x 0) with false by (symmetry; apply qlt_false_iff; lra).
  replace (qlt sz x) with true by (symmetry; apply qlt_iff; lra).
  assert (F : Qfloor (x / sz) = 1%Z).
  { destruct (floor_bounds (x / sz)) as [F1 F2]. assert (X : x == sz * (x / sz)) by (field; lra). set (y := x / sz) in *.
    assert (Y1 : 1 < y) by (apply Qlt_shift_div_l; lra). assert (Y2 : y < 2) by (apply Qlt_shift_div_r; lra).
    assert (A : (0 < Qfloor y)%Z) by (rewrite Zlt_Qlt; change (inject_Z 0) with 0; lra).
    assert (B : (Qfloor y < 2)%Z) by (rewrite Zlt_Qlt; change (inject_Z 2) with 2; lra). lia. }
  rewrite F. change (inject_Z 1) with 1. ring.
Qed.

(** scipy's spline passes through the data, and equal indices give equal values *)
Definition exact_at_nodes (spl : cube -> nat * nat * nat -> Q -> Q -> Q -> Q) : Prop :=
  forall data n1 n2 n3 i j k x y z, (i < n1)%nat -> (j < n2)%nat -> (k < n3)%nat ->
    x == qn i -> y == qn j -> z == qn k -> spl data (n1, n2, n3) x y z == data i j k.
Definition respects (spl : cube -> nat * nat * nat -> Q -> Q -> Q -> Q) : Prop :=
  forall data dims x y z x' y' z', x == x' -> y == y' -> z == z' -> spl data dims x y z == spl data dims x' y' z'.

(** * C135 *)
(** The spline is evaluated inside the grid for every day and position. *)
Theorem c135_inside : forall spl1 spl2 data n1 n2 n3, (2 <= n1)%nat -> (2 <= n2)%nat -> (2 <= n3)%nat ->
  (forall x y z, 0 <= x <= qn (n1 - 1) -> 0 <= y <= qn (n2 - 1) -> 0 <= z <= qn (n3 - 1) ->
     spl1 data (n1, n2, n3) x y z == spl2 data (n1, n2, n3) x y z) ->
  forall day lat lon, getPressure spl1 data (n1, n2, n3) day lat lon == getPressure spl2 data (n1, n2, n3) day lat lon.
Proof. intros spl1 spl2 data n1 n2 n3 H1 H2 H3 H day lat lon. unfold getPressure, interp3d. apply H; now apply wrap_range. Qed.
Lemma wrap_node n i x : (2 <= n)%nat -> (i < n)%nat -> x == qn i -> wrap n x == qn i.
Proof.
  intros Hn Hi Hx. rewrite wrap_in; [exact Hx|exact Hn|]. pose proof (qn_le i (n - 1) ltac:(lia)). pose proof (qn_le 0 i ltac:(lia)).
  change (qn 0) with 0 in *. lra.
Qed.
Lemma at_node spl data n1 n2 n3 d lat lon i j k : exact_at_nodes spl -> (i < n1)%nat -> (j < n2)%nat -> (k < n3)%nat ->
  wrap n1 (index n1 d 0 365) == qn i -> wrap n2 (index n2 lat (-90) 180) == qn j -> wrap n3 (index n3 lon 0 360) == qn k ->
  getPressure spl data (n1, n2, n3) d lat lon == data i j k.
Proof. intros HS H1 H2 H3 W1 W2 W3. unfold getPressure, interp3d. now apply HS. Qed.
Lemma index_day d : index 365 d 0 365 == d.
Proof. unfold index. change (qn 365) with 365. field. Qed.
Lemma index_row n j lat : (0 < n)%nat -> lat == - (90) + qn j * (180 / qn n) -> index n lat (-90) 180 == qn j.
Proof. intros H E. unfold index. rewrite E. pose proof (qn_pos n H). field. lra. Qed.
Lemma index_col n k lon : (0 < n)%nat -> lon == qn k * (360 / qn n) -> index n lon 0 360 == qn k.
Proof. intros H E. unfold index. rewrite E. pose proof (qn_pos n H). field. lra. Qed.
(** A file with 365 records whose rows start at the south pole and whose rows and columns divide 180 and 360 degrees
    gives its own values back, for simulated and for observed cyclones. *)
Theorem c135_nodes : forall spl data nlat nlon d j k lat lon, exact_at_nodes spl -> (2 <= nlat)%nat -> (2 <= nlon)%nat -> (d < 365)%nat -> (j < nlat)%nat -> (k < nlon)%nat ->
  lat == - (90) + qn j * (180 / qn nlat) -> lon == qn k * (360 / qn nlon) ->
  getPressure spl data (365%nat, nlat, nlon) (qn d) lat lon == data d j k /\
  forall midnight, ltmPressure spl data (365%nat, nlat, nlon) (Z.of_nat d) (inject_Z midnight) lat lon == data d j k.
Proof.
  intros spl data nlat nlon d j k lat lon HS H1 H2 Hd Hj Hk Hlat Hlon.
  assert (A : forall x, x == qn d -> getPressure spl data (365%nat, nlat, nlon) x lat lon == data d j k).
  { intros x Hx. apply at_node; try assumption; apply wrap_node; try lia.
    - rewrite index_day. exact Hx.
    - apply index_row; [lia|exact Hlat].
    - apply index_col; [lia|exact Hlon]. }
  split; [apply A; reflexivity|]. intros m. apply A. rewrite Qfloor_Z. unfold MslpModel.qn. ring.
Qed.
(** If the spline reproduces fields that are linear along the axes, the interpolated pressure of a field that is linear
    in day, latitude and longitude is that field, up to the last row and column. *)
Theorem c135_linear : forall spl (a b c e : Q) nlat nlon day lat lon, (2 <= nlat)%nat -> (2 <= nlon)%nat ->
  (forall a b c e x y z, 0 <= x <= 364 -> 0 <= y <= qn (nlat - 1) -> 0 <= z <= qn (nlon - 1) ->
     spl (fun i j k => a + b * qn i + c * qn j + e * qn k) (365%nat, nlat, nlon) x y z == a + b * x + c * y + e * z) ->
  0 <= day <= 364 -> - (90) <= lat <= 90 - 180 / qn nlat -> 0 <= lon <= 360 - 360 / qn nlon ->
  respects spl ->
  getPressure spl (fun i j k => (a - 90 * c) + b * qn i + (c * (180 / qn nlat)) * qn j + (e * (360 / qn nlon)) * qn k)
    (365%nat, nlat, nlon) day lat lon == a + b * day + c * lat + e * lon.
Proof.
  intros spl a b c e nlat nlon day lat lon H1 H2 HS Hd Hl Ho HR. unfold getPressure, interp3d.
  pose proof (qn_pos nlat ltac:(lia)) as P1. pose proof (qn_pos nlon ltac:(lia)) as P2.
  assert (R : forall n r s : Q, 0 < n -> 0 < s -> 0 <= r <= s - s / n -> 0 <= n * r / s <= n - 1).
  { intros n r s Hn Hs [A B]. assert (X : n * r / s * s == n * r) by (field; lra). split.
    - apply Qle_shift_div_l; [exact Hs|]. assert (0 <= n * r) by (apply Qmult_le_0_compat; lra). lra.
    - apply Qle_shift_div_r; [exact Hs|]. assert (0 <= n * (s - s / n - r)) by (apply Qmult_le_0_compat; lra).
      assert (Y : n * (s - s / n - r) == n * s - s - n * r) by (field; lra). lra. }
  assert (W1 : 0 <= index nlat lat (- (90)) 180 <= qn (nlat - 1)).
  { unfold index. destruct (R (qn nlat) (lat - - (90)) 180 P1 ltac:(lra) ltac:(lra)) as [A B]. rewrite (qn_minus nlat) by lia. lra. }
  assert (W2 : 0 <= index nlon lon 0 360 <= qn (nlon - 1)).
  { unfold index. destruct (R (qn nlon) (lon - 0) 360 P2 ltac:(lra) ltac:(lra)) as [A B]. rewrite (qn_minus nlon) by lia. lra. }
  assert (E0 : index 365 day 0 365 == day) by (unfold index; change (qn 365) with 365; field).
  change (-90) with (- (90)).
  rewrite (wrap_in nlat _ H1 W1), (wrap_in nlon _ H2 W2), (wrap_in 365) by (try lia; change (qn (365 - 1)) with 364; lra).
  rewrite HS; [|lra|exact W1|exact W2]. rewrite E0. unfold index. field. split; lra.
Qed.
(** A stand-in for the spline: the value of the nearest node below *)
Definition floorSpl (data : cube) (dims : nat * nat * nat) (x y z : Q) : Q :=
  data (Z.to_nat (Qfloor x)) (Z.to_nat (Qfloor y)) (Z.to_nat (Qfloor z)).
Lemma floorSpl_exact : exact_at_nodes floorSpl.
Proof.
  intros data n1 n2 n3 i j k x y z _ _ _ Hx Hy Hz. unfold floorSpl.
  assert (F : forall q n, q == qn n -> Z.to_nat (Qfloor q) = n) by (intros q n H; rewrite H; unfold qn; rewrite Qfloor_Z; apply Nat2Z.id).
  rewrite (F x i Hx), (F y j Hy), (F z k Hz). reflexivity.
Qed.
Example c135_example : exact_at_nodes floorSpl /\
  getPressure floorSpl (fun d j k => qn (100 * d + 10 * j + k)) (365%nat, 72%nat, 144%nat) 3 (-85) 5 == 322.
Proof. split; [exact floorSpl_exact|vm_compute; reflexivity]. Qed.

(** A function that meets the hypothesis of [c135_linear] *)
Definition planeSpl (data : cube) (dims : nat * nat * nat) (x y z : Q) : Q :=
  data 0%nat 0%nat 0%nat + x * (data 1%nat 0%nat 0%nat - data 0%nat 0%nat 0%nat) + y * (data 0%nat 1%nat 0%nat - data 0%nat 0%nat 0%nat)
  + z * (data 0%nat 0%nat 1%nat - data 0%nat 0%nat 0%nat).
Example c135_linear_example : respects planeSpl /\
  forall dims (a b c e x y z : Q), planeSpl (fun i j k => a + b * qn i + c * qn j + e * qn k) dims x y z == a + b * x + c * y + e * z.
Proof.
  split.
  - intros data dims x y z x' y' z' H1 H2 H3. unfold planeSpl. now rewrite H1, H2, H3.
  - intros. unfold planeSpl. change (qn 0) with 0. change (qn 1) with 1. ring.
Qed.

(** * C136 *)
(** The last column is joined to the first: the pressure at 360 degrees is that of the second column. *)
Theorem c136_greenwich_refuted : forall spl data nlat nlon d j lat, exact_at_nodes spl -> (2 <= nlat)%nat -> (3 <= nlon)%nat -> (d < 365)%nat -> (j < nlat)%nat ->
  lat == - (90) + qn j * (180 / qn nlat) ->
  getPressure spl data (365%nat, nlat, nlon) (qn d) lat 360 == data d j 1%nat /\
  getPressure spl data (365%nat, nlat, nlon) (qn d) lat 0 == data d j 0%nat.
Proof.
  intros spl data nlat nlon d j lat HS H1 H2 Hd Hj Hlat.
  assert (A : wrap 365 (index 365 (qn d) 0 365) == qn d) by (apply wrap_node; try lia; apply index_day).
  assert (B : wrap nlat (index nlat lat (-90) 180) == qn j) by (apply wrap_node; try lia; apply index_row; [lia|exact Hlat]).
  split; (apply at_node; try assumption; try lia).
  - assert (I : index nlon 360 0 360 == qn nlon) by (unfold index; field).
    pose proof (qn_minus nlon ltac:(lia)) as M. pose proof (qn_le 3 nlon H2) as L. change (qn 3) with 3 in L.
    rewrite wrap_over; [change (qn 1) with 1| | |]; try lia; lra.
  - apply wrap_node; try lia. apply index_col; [lia|]. change (qn 0) with 0. ring.
Qed.
(** East of the last column the pressures next to the first column are returned. *)
Theorem c136_east_refuted : forall spl data dims1 nlat nlon day lat lon, respects spl -> (3 <= nlon)%nat ->
  360 - 360 / qn nlon < lon -> lon <= 360 ->
  getPressure spl data (dims1, nlat, nlon) day lat lon == getPressure spl data (dims1, nlat, nlon) day lat (lon - (360 - 360 / qn nlon)).
Proof.
  intros spl data n1 nlat nlon day lat lon HR H H1 H2. unfold getPressure, interp3d. apply HR; try reflexivity.
  pose proof (qn_minus nlon ltac:(lia)) as M. pose proof (qn_le 3 nlon H) as L. change (qn 3) with 3 in L.
  set (n := qn nlon) in *. set (r := lon - (360 - 360 / n)).
  assert (R1 : 0 < r) by (unfold r; lra). assert (R2 : r <= 360 / n) by (unfold r; lra).
  assert (I : index nlon lon 0 360 == n - 1 + n * r / 360) by (unfold index, r; fold n; field; lra).
  assert (I2 : index nlon r 0 360 == n * r / 360) by (unfold index; fold n; field).
  assert (B : 0 < n * r / 360 <= 1).
  { split; [apply Qlt_shift_div_l; [lra|]; assert (0 < n * r) by (apply Qmult_lt_0_compat; lra); lra|].
    apply Qle_shift_div_r; [lra|]. assert (0 <= n * (360 / n - r)) by (apply Qmult_le_0_compat; lra).
    assert (n * (360 / n - r) == 360 - n * r) by (field; lra). lra. }
  set (q := n * r / 360) in *. clearbody q. rewrite (wrap_over nlon (index nlon lon 0 360)) by (try lia; lra).
  rewrite wrap_in by (try lia; lra). lra.
Qed.
(** A file with rows at both poles: the row of a latitude is missed, and the north pole has the pressure of the second
    row from the south. *)
Theorem c136_poles_refuted : forall nlat j, (3 <= nlat)%nat -> (0 < j < nlat)%nat ->
  (qn j < index nlat (- (90) + qn j * (180 / qn (nlat - 1))) (-90) 180)%Q /\
  forall spl data nlon d k lon, exact_at_nodes spl -> (2 <= nlon)%nat -> (d < 365)%nat -> (k < nlon)%nat -> lon == qn k * (360 / qn nlon) ->
    getPressure spl data (365%nat, nlat, nlon) (qn d) 90 lon == data d 1%nat k.
Proof.
  intros nlat j H Hj. pose proof (qn_minus nlat ltac:(lia)) as M. pose proof (qn_le 3 nlat H) as L. change (qn 3) with 3 in L.
  pose proof (qn_pos j ltac:(lia)) as P. split.
  - unfold index. assert (E : qn nlat * (- (90) + qn j * (180 / qn (nlat - 1)) - -90) / 180 == qn j + qn j / qn (nlat - 1)).
    { rewrite M. field. lra. }
    rewrite E. assert (0 < qn j / qn (nlat - 1)) by (apply Qlt_shift_div_l; lra). lra.
  - intros spl data nlon d k lon HS H2 Hd Hk Hlon. apply at_node; try assumption; try lia.
    + apply wrap_node; try lia. apply index_day.
    + assert (I : index nlat 90 (-90) 180 == qn nlat) by (unfold index; field).
      rewrite wrap_over; [change (qn 1) with 1| | |]; try lia; lra.
    + apply wrap_node; try lia. apply index_col; [lia|exact Hlon].
Qed.
(** Days of the year start at one, the records at zero: 1 January and 31 December both have the pressure of the second
    record, 2 January. *)
Theorem c136_days_refuted : forall spl data nlat nlon j k lat lon, exact_at_nodes spl -> (2 <= nlat)%nat -> (2 <= nlon)%nat -> (j < nlat)%nat -> (k < nlon)%nat ->
  lat == - (90) + qn j * (180 / qn nlat) -> lon == qn k * (360 / qn nlon) ->
  getPressure spl data (365%nat, nlat, nlon) 1 lat lon == data 1%nat j k /\ getPressure spl data (365%nat, nlat, nlon) 365 lat lon == data 1%nat j k.
Proof.
  intros spl data nlat nlon j k lat lon HS H1 H2 Hj Hk Hlat Hlon.
  assert (B : wrap nlat (index nlat lat (-90) 180) == qn j) by (apply wrap_node; try lia; apply index_row; [lia|exact Hlat]).
  assert (C : wrap nlon (index nlon lon 0 360) == qn k) by (apply wrap_node; try lia; apply index_col; [lia|exact Hlon]).
  split; (apply at_node; try assumption; try lia); vm_compute; reflexivity.
Qed.
(** The coordinates of the file are not read: a file whose rows run from north to south, such as the documented
    long-term mean, gives the pressure of the other hemisphere. Here the field is the latitude itself. *)
Definition northFirst (nlat : nat) : cube := fun _ j _ => 90 - qn j * (180 / qn (nlat - 1)).
Theorem c136_rows_refuted : forall spl nlat nlon j lat, exact_at_nodes spl -> (2 <= nlat)%nat -> (2 <= nlon)%nat -> (j < nlat)%nat ->
  lat == - (90) + qn j * (180 / qn nlat) ->
  Qabs (getPressure spl (northFirst nlat) (365%nat, nlat, nlon) 0 lat 0 - - lat) <= 180 / qn nlat.
Proof.
  intros spl nlat nlon j lat HS H1 H2 Hj Hlat.
  pose proof (proj1 (c135_nodes spl (northFirst nlat) nlat nlon 0 j 0 lat (qn 0 * (360 / qn nlon)) HS H1 H2 ltac:(lia) Hj ltac:(lia) Hlat ltac:(reflexivity))) as N.
  assert (G : getPressure spl (northFirst nlat) (365%nat, nlat, nlon) 0 lat 0 == northFirst nlat 0%nat j 0%nat).
  { apply at_node; try assumption; try lia; apply wrap_node; try lia.
    - apply index_day.
    - apply index_row; [lia|exact Hlat].
    - apply index_col; [lia|]. change (qn 0) with 0. ring. }
  rewrite G, Hlat. unfold northFirst. pose proof (qn_minus nlat ltac:(lia)) as M. pose proof (qn_pos (nlat - 1) ltac:(lia)) as P.
  pose proof (qn_le j (nlat - 1) ltac:(lia)) as J. pose proof (qn_le 0 j ltac:(lia)) as J0. change (qn 0) with 0 in J0.
  set (m := qn (nlat - 1)) in *. set (n := qn nlat) in *. set (x := qn j) in *. clearbody x m n. clear - M P J J0.
  assert (E : 90 - x * (180 / m) - - (- (90) + x * (180 / n)) == - ((180 / n) * (x / m))) by (rewrite M; field; lra).
  assert (X : 0 <= x / m <= 1) by (split; [apply Qle_shift_div_l; lra|apply Qle_shift_div_r; lra]).
  assert (Y : 0 < 180 / n) by (apply Qlt_shift_div_l; lra).
  rewrite E. set (u := 180 / n) in *. set (v := x / m) in *. clearbody u v.
  assert (0 <= u * v) by (apply Qmult_le_0_compat; lra). assert (0 <= u * (1 - v)) by (apply Qmult_le_0_compat; lra).
  apply Qabs_Qle_condition. split; lra.
Qed.
Example c136_example : getPressure floorSpl (northFirst 73) (365%nat, 73%nat, 144%nat) 0 (-45) 0 == 45 /\
  getPressure floorSpl (fun d _ _ => qn d) (365%nat, 73%nat, 144%nat) 365 0 0 == 1 /\
  getPressure floorSpl (fun _ _ k => qn k) (365%nat, 73%nat, 144%nat) 0 0 (359 + (1 # 2)) == 0.
Proof. repeat split; vm_compute; reflexivity. Qed.

Print Assumptions c135_inside.
Print Assumptions c135_nodes.
Print Assumptions c135_linear.
Print Assumptions c136_greenwich_refuted.
Print Assumptions c136_east_refuted.
Print Assumptions c136_poles_refuted.
Print Assumptions c136_days_refuted.
Print Assumptions c136_rows_refuted.

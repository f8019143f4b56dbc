(** C139, C140, C141: wind directions, rasters and extents of the wind multipliers. *)
From Coq Require Import List Arith ZArith Lia Bool QArith Qround Reals Qreals Lra Psatz Lqa Ascii String.
From Verif Require Import CircleModel CircleProofs WindModel WindProofs5 SphereModel SphereProofs CellModel CellProofs GenProofs
  UtilModel UtilProofs MultModel RasterModel RasterProofs.
Import ListNotations.
Close Scope string_scope. Close Scope Q_scope. Open Scope list_scope. Open Scope R_scope.

(** * Directions *)
(** A wind from compass direction [theta] has the bearing [theta] *)
Theorem c139_bearing (s theta : R) : 0 < s -> 0 <= theta < 360 ->
  calculateBearing (- (s * sin (theta * PI / 180))) (- (s * cos (theta * PI / 180))) = theta.
Proof.
  intros P T. pose proof PI_RGT_0. rewrite bearing_from; [field; Lra.lra | exact P |].
  assert (0 <= theta * PI) by (apply Rmult_le_pos; Lra.lra). assert (theta * PI < 360 * PI) by (apply Rmult_lt_compat_r; Lra.lra). Lra.lra.
Qed.
Example c139_bearing_ex : 0 < 40 /\ 0 <= 225 < 360. Proof. Lra.lra. Qed.
Theorem c139_range (uu vv : R) : 0 <= calculateBearing uu vv < 360.
Proof.
  rewrite bearing_theta. pose proof PI_RGT_0. pose proof (rmod_range (2 * PI - (atan2 (- vv) (- uu) - PI / 2)) (2 * PI) PI2_pos) as B.
  unfold theta2bearing. set (r := rmod _ _) in *. clearbody r.
  assert (E : 180 / PI * r = 180 * (r / PI)) by (field; Lra.lra). rewrite E.
  assert (X : r = PI * (r / PI)) by (field; Lra.lra). set (q := r / PI) in *. clearbody q. split; Lra.nra.
Qed.
(** Every wind blows from its bearing *)
Theorem c139_components (uu vv : R) :
  let b := calculateBearing uu vv * PI / 180 in let speed := sqrt (uu ^ 2 + vv ^ 2) in
  uu = - (speed * sin b) /\ vv = - (speed * cos b).
Proof.
  cbv zeta. rewrite bearing_theta. pose proof PI_RGT_0. set (t := atan2 (- vv) (- uu)).
  replace (180 / PI * theta2bearing t * PI / 180) with (theta2bearing t) by (field; Lra.lra).
  destruct (bearing_dir t) as [-> ->]. pose proof (atan2_spec (- vv) (- uu)) as [A B]. fold t in A, B.
  replace ((- vv) ^ 2 + (- uu) ^ 2) with (uu ^ 2 + vv ^ 2) in A, B by ring. Lra.lra.
Qed.

(** The compass octants, clockwise from north *)
Definition compass : list string := ["n"; "ne"; "e"; "se"; "s"; "sw"; "w"; "nw"]%string.
Ltac sector_cases H :=
  repeat (destruct H as [H|H]; [subst|]); try contradiction.
(** The multiplier of direction [k] is applied exactly to winds from within 22.5 degrees of 45 k *)
Lemma in_sectorR_iff b s : in_sectorR b s = true <-> Q2R (s_min s) <= b < Q2R (s_max s).
Proof.
  unfold in_sectorR. rewrite andb_true_iff, negb_true_iff, rlt_false, rlt_true. tauto.
Qed.
Theorem c139_octant (s theta : R) (k : nat) : 0 < s -> 0 <= theta < 360 -> (k < 8)%nat ->
  (exists sec, List.In sec indices /\ s_dir sec = nth k compass EmptyString /\
     in_sectorR (calculateBearing (- (s * sin (theta * PI / 180))) (- (s * cos (theta * PI / 180)))) sec = true) <->
  (45 * INR k - 45 / 2 <= theta < 45 * INR k + 45 / 2 \/ 45 * INR k - 45 / 2 <= theta - 360 < 45 * INR k + 45 / 2).
Proof.
  intros P T K. rewrite c139_bearing by auto. split.
  - intros (sec & I & D & B). apply in_sectorR_iff in B. cbn [List.In indices] in I.
    repeat (destruct I as [<-|I]; [cbn [s_dir s_min s_max] in D, B; unfold Q2R in B; cbn [Qnum Qden] in B;
      do 8 (destruct k as [|k]; [first [discriminate D | cbn [INR]; Lra.lra] |]); lia|]). contradiction.
  - intros B. destruct k as [|[|[|[|[|[|[|[|k]]]]]]]]; try lia; cbn [INR nth compass] in B |- *.
    1: destruct (Rlt_dec theta 180).
    + exists {| s_dir := "n"; s_min := 0; s_max := 225#10 |}. rewrite in_sectorR_iff. unfold Q2R. cbn [s_dir s_min s_max Qnum Qden].
      repeat split; [unfold indices; cbn; tauto | Lra.lra | Lra.lra].
    + exists {| s_dir := "n"; s_min := 3375#10; s_max := 360 |}. rewrite in_sectorR_iff. unfold Q2R. cbn [s_dir s_min s_max Qnum Qden].
      repeat split; [unfold indices; cbn; tauto | Lra.lra | Lra.lra].
    + exists {| s_dir := "ne"; s_min := 225#10; s_max := 675#10 |}. rewrite in_sectorR_iff. unfold Q2R. cbn [s_dir s_min s_max Qnum Qden].
      repeat split; [unfold indices; cbn; tauto | Lra.lra | Lra.lra].
    + exists {| s_dir := "e"; s_min := 675#10; s_max := 1125#10 |}. rewrite in_sectorR_iff. unfold Q2R. cbn [s_dir s_min s_max Qnum Qden].
      repeat split; [unfold indices; cbn; tauto | Lra.lra | Lra.lra].
    + exists {| s_dir := "se"; s_min := 1125#10; s_max := 1575#10 |}. rewrite in_sectorR_iff. unfold Q2R. cbn [s_dir s_min s_max Qnum Qden].
      repeat split; [unfold indices; cbn; tauto | Lra.lra | Lra.lra].
    + exists {| s_dir := "s"; s_min := 1575#10; s_max := 2025#10 |}. rewrite in_sectorR_iff. unfold Q2R. cbn [s_dir s_min s_max Qnum Qden].
      repeat split; [unfold indices; cbn; tauto | Lra.lra | Lra.lra].
    + exists {| s_dir := "sw"; s_min := 2025#10; s_max := 2475#10 |}. rewrite in_sectorR_iff. unfold Q2R. cbn [s_dir s_min s_max Qnum Qden].
      repeat split; [unfold indices; cbn; tauto | Lra.lra | Lra.lra].
    + exists {| s_dir := "w"; s_min := 2475#10; s_max := 2925#10 |}. rewrite in_sectorR_iff. unfold Q2R. cbn [s_dir s_min s_max Qnum Qden].
      repeat split; [unfold indices; cbn; tauto | Lra.lra | Lra.lra].
    + exists {| s_dir := "nw"; s_min := 2925#10; s_max := 3375#10 |}. rewrite in_sectorR_iff. unfold Q2R. cbn [s_dir s_min s_max Qnum Qden].
      repeat split; [unfold indices; cbn; tauto | Lra.lra | Lra.lra].
Qed.
Example c139_octant_ex : 45 * INR 7 - 45 / 2 <= 300 < 45 * INR 7 + 45 / 2. Proof. cbn [INR]. Lra.lra. Qed.
Close Scope R_scope. Open Scope Q_scope.

(** * Rasters of the wind field *)
(** A wind field on a regular grid with spacing [d], latitudes ascending *)
Record grid_ok {A} (f : field A) (x0 y0 d : Q) : Prop := {
  g_d : 0 < d; g_lon : regular (f_lon f) x0 d; g_lat : regular (f_lat f) y0 d;
  g_cols : (2 <= List.length (f_lon f))%nat; g_rows : (1 <= List.length (f_lat f))%nat;
  g_val : List.length (f_val f) = List.length (f_lat f);
  g_row : forall row, List.In row (f_val f) -> List.length row = List.length (f_lon f) }.
(** Position within half a cell of a grid point *)
Definition in_cell (d x y px py : Q) : Prop :=
  x - d / 2 <= px /\ px < x + d / 2 /\ y - d / 2 <= py /\ py < y + d / 2.
(** The value of the field at grid point (x, y) *)
Definition value_at {A} (f : field A) (x y : Q) (v : A) : Prop :=
  exists i j row, nth_error (f_lat f) i = Some y /\ nth_error (f_lon f) j = Some x /\
    nth_error (f_val f) i = Some row /\ nth_error row j = Some v.

Lemma gust_band {A} (f : field A) : rev (f_val (gustFile f)) = f_val f.
Proof. apply rev_involutive. Qed.
(** processMultipliers.main: the raster has at every position the value of the grid point nearby *)
Theorem c140_main {A} (f : field A) x0 y0 d : grid_ok f x0 y0 d ->
  exists r, mainRaster f = Some r /\
    forall px py v, at_ r px py = Some v <-> exists x y, value_at f x y v /\ in_cell d x y px py.
Proof.
  intros [D Rx Ry Cx Cy Lv Lr].
  destruct (nth_error (f_lat f) 0) as [ya|] eqn:E0; [|apply nth_error_None in E0; lia].
  pose proof (Ry _ _ E0) as A0. unfold qi in A0. change (inject_Z (Z.of_nat 0)) with 0 in A0.
  destruct (process_spec (f_val (gustFile f)) (f_lon f) (f_lat (gustFile f)) x0 d ya) as (r & E & Ox & Oy & Px & Py & B); auto.
  { cbn [gustFile f_lat]. rewrite last_error_rev; auto. intros N. rewrite N in Cy. cbn in Cy. lia. }
  exists r. split; [exact E|]. rewrite gust_band in B.
  assert (Oy' : originY r == y0 - d / 2) by (rewrite Oy, A0; ring).
  intros px py v. split.
  - intros S. apply at_some in S; [|rewrite Px; auto|rewrite Py; auto].
    destruct S as (i & j & row & S1 & S2 & S3 & S4 & S5 & S6). rewrite B in S1.
    assert (Hi : (i < List.length (f_lat f))%nat) by (rewrite <- Lv; apply nth_error_Some; congruence).
    assert (Hj : (j < List.length (f_lon f))%nat) by (rewrite <- (Lr row) by (eapply nth_error_In; eauto); apply nth_error_Some; congruence).
    destruct (nth_error (f_lat f) i) as [y|] eqn:Ey; [|apply nth_error_None in Ey; lia].
    destruct (nth_error (f_lon f) j) as [x|] eqn:Ex; [|apply nth_error_None in Ex; lia].
    exists x, y. split; [exists i, j, row; auto|].
    pose proof (Ry _ _ Ey) as Qy. pose proof (Rx _ _ Ex) as Qx. rewrite Ox, Px in S3, S4. rewrite Oy', Py in S5, S6.
    unfold in_cell. rewrite Qx, Qy.
    assert (F1 : x0 - d / 2 + (qi j + 1) * d == x0 + qi j * d + d / 2) by field. rewrite F1 in S4.
    assert (F2 : y0 - d / 2 + (qi i + 1) * d == y0 + qi i * d + d / 2) by field. rewrite F2 in S6.
    repeat split; auto; lra.
  - intros (x & y & (i & j & row & Ey & Ex & V1 & V2) & C1 & C2 & C3 & C4).
    pose proof (Ry _ _ Ey) as Qy. pose proof (Rx _ _ Ex) as Qx. rewrite Qx in C1, C2. rewrite Qy in C3, C4.
    apply at_main with (i := i) (j := j) (row := row) (x0 := x0) (y0 := y0) (d := d); auto. now rewrite B.
Qed.
Definition exField : field nat := {| f_lat := [-(20 # 1); -(19 # 1); -(18 # 1)]; f_lon := [140 # 1; 141 # 1]; f_val := [[1; 2]; [3; 4]; [5; 6]]%nat |}.
Example c140_main_ex : grid_ok exField (140 # 1) (-(20 # 1)) 1 /\ value_at exField (141 # 1) (-(19 # 1)) 4%nat.
Proof.
  split; [|exists 1%nat, 1%nat, [3; 4]%nat; auto].
  split; try reflexivity; cbn [exField f_lat f_lon f_val List.length]; try lia.
  - intros [|[|[|i]]] y E; cbn in E; try discriminate; injection E as <-; reflexivity.
  - intros [|[|[|[|i]]]] y E; cbn in E; try discriminate; injection E as <-; reflexivity.
  - intros row [<-|[<-|[<-|[]]]]; reflexivity.
Qed.

(** A raster made from the top left corners of its cells, latitudes ascending, pixel height negative *)
Theorem c140_create {A} (array : list (list A)) x y x0 y0 dx d : 0 < dx -> 0 < d -> regular x x0 dx -> regular y y0 d ->
  List.length array = List.length y -> (1 <= List.length y)%nat -> (1 <= List.length x)%nat ->
  exists r, createRaster array x y dx (- d) = Some r /\
    forall i j row v xj yi a b, nth_error array i = Some row -> nth_error row j = Some v ->
      nth_error x j = Some xj -> nth_error y i = Some yi -> 0 <= a -> a < dx -> 0 <= b -> b < d ->
      at_ r (xj + a) (yi - b) = Some v.
Proof.
  intros Dx D Rx Ry L Ly Lx. unfold createRaster.
  destruct (nth_error x 0) as [x1|] eqn:E0; [|apply nth_error_None in E0; lia].
  destruct (last_error y) as [y1|] eqn:E1; [|apply nth_error_None in E1; lia].
  replace (Qeq_bool (- d) 0) with false. 2:{ symmetry. apply not_true_iff_false. intros Q. apply Qeq_bool_iff in Q. lra. }
  replace (qlt 0 (- d)) with false by (symmetry; apply qlt_false_iff; lra).
  eexists. split; [reflexivity|]. intros i j row v xj yi a b V1 V2 Ex Ey A1 A2 B1 B2.
  pose proof (Rx _ _ E0) as Q0. pose proof (Ry _ _ E1) as Q1. pose proof (Rx _ _ Ex) as Qx. pose proof (Ry _ _ Ey) as Qy.
  assert (Hi : (i < List.length array)%nat) by (apply nth_error_Some; congruence).
  unfold qi in Q0. change (inject_Z (Z.of_nat 0)) with 0 in Q0.
  assert (K : qi (List.length y - 1) == qi i + qi (List.length array - 1 - i)).
  { unfold qi. rewrite <- inject_Z_plus, <- Nat2Z.inj_add. rewrite L. replace (i + (List.length y - 1 - i))%nat with (List.length y - 1)%nat by lia. reflexivity. }
  set (k := (List.length array - 1 - i)%nat) in *. rewrite K in Q1.
  apply at_down with (d := d) (i := k) (j := j) (row := row); cbn [originX originY pixelX pixelY band]; auto; try reflexivity.
  - rewrite nth_error_rev by lia. rewrite <- V1. f_equal. lia.
  - rewrite Q0, Qx. lra.
  - rewrite Q0, Qx. assert (F : x0 + 0 * dx + (qi j + 1) * dx == x0 + qi j * dx + dx) by ring. rewrite F. lra.
  - rewrite Q1, Qy. assert (F : y0 + (qi i + qi k) * d - (qi k + 1) * d == y0 + qi i * d - d) by ring. rewrite F. lra.
  - rewrite Q1, Qy. assert (F : y0 + (qi i + qi k) * d - qi k * d == y0 + qi i * d) by ring. rewrite F. lra.
Qed.
Example c140_create_ex : exists r, createRaster [[1; 2]; [3; 4]]%nat [136 # 1; 138 # 1] [-(22 # 1); -(20 # 1)] 2 (- (2)) = Some r /\
  at_ r (139 # 1) (-(21 # 1)) = Some 4%nat /\ at_ r (137 # 1) (-(23 # 1)) = Some 1%nat.
Proof. eexists. repeat split; vm_compute; reflexivity. Qed.

(** * Combined multipliers *)
Definition valid (d : Q) : Prop := ~ d == nodata.
Lemma masked_valid d : valid d -> masked d = {| m_data := d; m_mask := false |}.
Proof. intros H. unfold masked. f_equal. apply not_true_iff_false. intros E. apply Qeq_bool_iff in E. now apply H. Qed.
Theorem c140_combine t p s : valid t -> valid p -> valid s -> combineCell t p s == t * p * s.
Proof. intros A B C. unfold combineCell. rewrite !masked_valid by auto. reflexivity. Qed.
Theorem c140_combine_nodata p s : combineCell nodata p s == nodata.
Proof. reflexivity. Qed.
Example c140_combine_ex : valid 1 /\ valid (9 # 10) /\ valid (8 # 10). Proof. repeat split; discriminate. Qed.

(** * The extent *)
Lemma listMin_spec l m : listMin l = Some m -> List.In m l /\ forall x, List.In x l -> m <= x.
Proof.
  destruct l as [|a l]; [discriminate|]. intros E. cbn [listMin] in E. apply (f_equal (fun o => match o with Some z => z | None => a end)) in E. subst m.
  revert a. induction l as [|b l IH]; intros a; cbn [fold_left].
  - split; [now left|]. intros x [->|[]]. apply Qle_refl.
  - destruct (qlt b a) eqn:E.
    + apply qlt_iff in E. destruct (IH b) as [A B]. split; [right; exact A|]. intros x [->|H]; [|now apply B].
      eapply Qle_trans; [apply B; now left|]. lra.
    + apply qlt_false_iff in E. destruct (IH a) as [A B]. split; [destruct A; [now left|right; now right]|].
      intros x [->|[->|H]]; [apply B; now left| |apply B; now right]. eapply Qle_trans; [apply B; now left|exact E].
Qed.
Lemma listMax_spec l m : listMax l = Some m -> List.In m l /\ forall x, List.In x l -> x <= m.
Proof.
  destruct l as [|a l]; [discriminate|]. intros E. cbn [listMax] in E. apply (f_equal (fun o => match o with Some z => z | None => a end)) in E. subst m.
  revert a. induction l as [|b l IH]; intros a; cbn [fold_left].
  - split; [now left|]. intros x [->|[]]. apply Qle_refl.
  - destruct (qlt a b) eqn:E.
    + apply qlt_iff in E. destruct (IH b) as [A B]. split; [right; exact A|]. intros x [->|H]; [|now apply B].
      eapply Qle_trans; [|apply B; now left]. lra.
    + apply qlt_false_iff in E. destruct (IH a) as [A B]. split; [destruct A; [now left|right; now right]|].
      intros x [->|[->|H]]; [apply B; now left| |apply B; now right]. eapply Qle_trans; [exact E|apply B; now left].
Qed.
Lemma max2_le a b x : max2 a b <= x <-> a <= x /\ b <= x.
Proof. unfold max2. destruct (qlt a b) eqn:E; [apply qlt_iff in E|apply qlt_false_iff in E]; split; intros; lra. Qed.
Lemma min2_ge a b x : x <= min2 a b <-> x <= a /\ x <= b.
Proof. unfold min2. destruct (qlt b a) eqn:E; [apply qlt_iff in E|apply qlt_false_iff in E]; split; intros; lra. Qed.
(** Membership in an extent with four bounds *)
Definition within (e : extent) (x y : Q) : Prop :=
  exists a b c d, e_xMin e = Some a /\ e_xMax e = Some b /\ e_yMin e = Some c /\ e_yMax e = Some d /\
    a <= x /\ x <= b /\ c <= y /\ y <= d.
(** Without a configured extent: the points between grid points of the wind field and inside a
    north-up image of the multipliers *)
Theorem c140_extent lon lat im : lon <> [] -> lat <> [] -> gt2 im == 0 -> gt4 im == 0 ->
  exists e, outputExtent noExtent lon lat im = Some e /\
    forall x y, within e x y <->
      ((exists a b, List.In a lon /\ List.In b lon /\ a <= x /\ x <= b) /\
       (exists a b, List.In a lat /\ List.In b lat /\ a <= y /\ y <= b) /\
       gt0 im <= x /\ x <= gt0 im + inject_Z (im_width im) * gt1 im /\
       gt3 im + inject_Z (im_height im) * gt5 im <= y /\ y <= gt3 im).
Proof.
  intros Nx Ny G2 G4. unfold outputExtent. cbn [noExtent e_xMin].
  destruct (listMin lon) as [x0|] eqn:X0; [|destruct lon; [congruence|discriminate]].
  destruct (listMax lon) as [x1|] eqn:X1; [|destruct lon; [congruence|discriminate]].
  destruct (listMin lat) as [y0|] eqn:Y0; [|destruct lat; [congruence|discriminate]].
  destruct (listMax lat) as [y1|] eqn:Y1; [|destruct lat; [congruence|discriminate]].
  apply listMin_spec in X0, Y0. apply listMax_spec in X1, Y1. destruct X0 as [X0 X0'], X1 as [X1 X1'], Y0 as [Y0 Y0'], Y1 as [Y1 Y1'].
  eexists. split; [reflexivity|]. cbv zeta. intros x y. unfold within. cbn [e_xMin e_xMax e_yMin e_yMax].
  assert (W : gt0 im + inject_Z (im_width im) * gt1 im + inject_Z (im_height im) * gt2 im == gt0 im + inject_Z (im_width im) * gt1 im) by (rewrite G2; ring).
  assert (H : gt3 im + inject_Z (im_width im) * gt4 im + inject_Z (im_height im) * gt5 im == gt3 im + inject_Z (im_height im) * gt5 im) by (rewrite G4; ring).
  split.
  - intros (a & b & c & d & Ea & Eb & Ec & Ed & A & B & C & D). injection Ea as <-. injection Eb as <-. injection Ec as <-. injection Ed as <-.
    apply max2_le in A, C. apply min2_ge in B, D. rewrite W in B. rewrite H in C.
    repeat split; try tauto.
    + exists x0, x1. tauto.
    + exists y0, y1. tauto.
  - intros ((a & b & A1 & A2 & A3 & A4) & (c & d & C1 & C2 & C3 & C4) & E1 & E2 & E3 & E4).
    do 4 eexists. repeat (split; [reflexivity|]). rewrite !max2_le, !min2_ge, W, H.
    pose proof (X0' a A1). pose proof (X1' b A2). pose proof (Y0' c C1). pose proof (Y1' d C2). repeat split; lra.
Qed.
(** A complete configured extent is kept *)
Theorem c140_extent_given e lon lat im : (exists x y, within e x y) -> outputExtent e lon lat im = Some e.
Proof. intros (x & y & a & b & c & d & A & B & C & D & _). unfold outputExtent. now rewrite A, B, C, D. Qed.
Definition exImage : image := {| gt0 := 140 # 1; gt1 := 1 # 10; gt2 := 0; gt3 := -(18 # 1); gt4 := 0; gt5 := -(1 # 10); im_width := 20; im_height := 10 |}.
Example c140_extent_ex : exists e, outputExtent noExtent [141 # 1; 142 # 1; 143 # 1] [-(20 # 1); -(19 # 1); -(18 # 1)] exImage = Some e /\ within e (1415 # 10) (-(185 # 10)).
Proof. eexists. split; [reflexivity|]. do 4 eexists. repeat (split; [reflexivity|]). repeat split; discriminate. Qed.

(** * Paths of S3 *)
Theorem c140_s3 (bucket key : string) : occurs "/"%char bucket = false ->
  s3segments (append "/vsis3/" (append bucket (String "/" key)))%string = Segments bucket key (last (split "/"%char key) ""%string).
Proof.
  intros H. unfold s3segments.
  assert (E : split "/"%char (append "/vsis3/" (append bucket (String "/" key)))%string = ""%string :: "vsis3"%string :: bucket :: split "/"%char key).
  { change (split "/"%char (append ""%string (String "/" (append "vsis3"%string (String "/" (append bucket (String "/" key)))))) = ""%string :: "vsis3"%string :: bucket :: split "/"%char key).
    rewrite !split_app by (auto; reflexivity). reflexivity. }
  rewrite E. cbn [negb String.eqb Ascii.eqb Bool.eqb]. rewrite join_split. f_equal.
  pose proof (split_len "/"%char key) as L. destruct (split "/"%char key) as [|w ws]; [cbn in L; lia|]. reflexivity.
Qed.
Example c140_s3_ex : s3segments "/vsis3/data/wm/m4.tif" = Segments "data" "wm/m4.tif" "m4.tif". Proof. reflexivity. Qed.

(** * What fails *)
(** calcLocalWindfield: every row except the northernmost has no data at its place, and its values
    are found mirrored, north of the domain *)
Theorem c141_local_refuted {A} (f : field A) x0 y0 d : grid_ok f x0 y0 d ->
  exists r, calcLocalRaster f = Some r /\
    forall i y, nth_error (f_lat f) i = Some y -> (i + 1 < List.length (f_lat f))%nat ->
      (forall px py, py < y + d / 2 -> at_ r px py = None) /\
      (forall j x row v, nth_error (f_lon f) j = Some x -> nth_error (f_val f) i = Some row -> nth_error row j = Some v ->
         at_ r x (y0 + (2 * qi (List.length (f_lat f) - 1) - qi i) * d) = Some v).
Proof.
  intros [D Rx Ry Cx Cy Lv Lr]. set (n := List.length (f_lat f)) in *.
  destruct (last_error (f_lat f)) as [yl|] eqn:E0; [|apply nth_error_None in E0; lia].
  pose proof (Ry _ _ E0) as A0. fold n in A0.
  destruct (process_spec (f_val f) (f_lon f) (f_lat f) x0 d yl) as (r & E & Ox & Oy & Px & Py & B); auto.
  exists r. split; [exact E|]. intros i y Ey Hi. pose proof (Ry _ _ Ey) as Qy.
  assert (K : qi (n - 1) == qi i + qi (n - 1 - i)).
  { unfold qi. rewrite <- inject_Z_plus, <- Nat2Z.inj_add. replace (i + (n - 1 - i))%nat with (n - 1)%nat by lia. reflexivity. }
  split.
  - intros px py U. apply at_below; [rewrite Py; auto|]. rewrite Oy, A0, K.
    assert (1 <= qi (n - 1 - i)). { unfold qi. change 1 with (inject_Z 1). rewrite <- Zle_Qle. lia. }
    assert (0 <= (qi (n - 1 - i) - 1) * d) by (apply Qmult_le_0_compat; lra).
    eapply Qlt_le_trans; [exact U|]. rewrite Qy.
    assert (F : y0 + (qi i + qi (n - 1 - i)) * d - d / 2 == y0 + qi i * d + d / 2 + (qi (n - 1 - i) - 1) * d) by field. rewrite F. lra.
  - intros j x row v Ex V1 V2. pose proof (Rx _ _ Ex) as Qx.
    assert (P2 : 0 < d / 2) by (apply Qlt_shift_div_l; lra).
    assert (M : nth_error (band r) (n - 1 - i) = Some row).
    { rewrite B, nth_error_rev by lia. rewrite <- V1. f_equal. lia. }
    assert (F : y0 + (2 * qi (n - 1) - qi i) * d == yl + qi (n - 1 - i) * d) by (rewrite A0, K; ring).
    refine (at_main r _ _ (n - 1 - i) j row v x0 yl d D Ox Oy Px Py M V2 _ _ _ _); rewrite ?F, ?Qx; lra.
Qed.
Example c141_local_ex : exists r, calcLocalRaster exField = Some r /\
  at_ r (140 # 1) (-(20 # 1)) = None /\ at_ r (140 # 1) (-(19 # 1)) = None /\ at_ r (140 # 1) (-(18 # 1)) = Some 5%nat /\
  at_ r (140 # 1) (-(17 # 1)) = Some 3%nat /\ at_ r (140 # 1) (-(16 # 1)) = Some 1%nat.
Proof. eexists. repeat split; vm_compute; reflexivity. Qed.

(** A layer without data: the result is neither missing nor as if the missing factor were one *)
Theorem c141_nodata_refuted t s : valid t -> valid s -> ~ t == 0 -> ~ s == 1 ->
  combineCell t nodata s == t /\ ~ combineCell t nodata s == nodata /\ ~ combineCell t nodata s == t * s.
Proof.
  intros A B Z O. unfold combineCell. rewrite (masked_valid t), (masked_valid s) by auto. cbn. split; [reflexivity|split; [exact A|]].
  intros E. apply O. assert (F : t * s - t * 1 == 0) by lra. assert (G : t * (s - 1) == 0) by lra.
  apply Qmult_integral in G. destruct G; [contradiction|lra].
Qed.
Example c141_nodata_ex : valid (9 # 10) /\ ~ 9 # 10 == 0 /\ ~ 9 # 10 == 1. Proof. repeat split; discriminate. Qed.

(** Three of four configured bounds are ignored without an error *)
Theorem c141_bounds_refuted a b c lon lat im :
  outputExtent {| e_xMin := Some a; e_xMax := Some b; e_yMin := Some c; e_yMax := None |} lon lat im = outputExtent noExtent lon lat im.
Proof. reflexivity. Qed.
(** A wind field west of the multipliers gives an extent with its bounds exchanged, not an error *)
Theorem c141_disjoint_refuted lon lat im : lon <> [] -> lat <> [] -> (forall x, List.In x lon -> x < gt0 im) ->
  exists e a b, outputExtent noExtent lon lat im = Some e /\ e_xMin e = Some a /\ e_xMax e = Some b /\ b < a.
Proof.
  intros Nx Ny H. unfold outputExtent. cbn [noExtent e_xMin].
  destruct (listMin lon) as [x0|] eqn:X0; [|destruct lon; [congruence|discriminate]].
  destruct (listMax lon) as [x1|] eqn:X1; [|destruct lon; [congruence|discriminate]].
  destruct (listMin lat) as [y0|] eqn:Y0; [|destruct lat; [congruence|discriminate]].
  destruct (listMax lat) as [y1|] eqn:Y1; [|destruct lat; [congruence|discriminate]].
  apply listMax_spec in X1. destruct X1 as [X1 _]. apply H in X1.
  do 3 eexists. repeat (split; [reflexivity|]).
  match goal with |- min2 ?p ?q < max2 ?u ?v =>
    assert (A : min2 p q <= p) by (unfold min2; destruct (qlt q p) eqn:F; [apply qlt_iff in F; lra | apply Qle_refl]);
    assert (B : v <= max2 u v) by (unfold max2; destruct (qlt u v) eqn:F; [apply Qle_refl | apply qlt_false_iff in F; exact F]) end.
  lra.
Qed.
Example c141_disjoint_ex : forall x, List.In x [138 # 1; 139 # 1] -> x < gt0 exImage.
Proof. intros x [<-|[<-|[]]]; reflexivity. Qed.
(** Malformed paths do not all raise ValueError *)
Theorem c141_path_refuted : s3segments "" = S3IndexError /\ s3segments "/vsis3" = S3IndexError /\ s3segments "s3://data/a.tif" = S3ValueError.
Proof. repeat split; reflexivity. Qed.

Print Assumptions c139_bearing.
Print Assumptions c139_range.
Print Assumptions c139_components.
Print Assumptions c139_octant.
Print Assumptions c140_main.
Print Assumptions c140_create.
Print Assumptions c140_combine.
Print Assumptions c140_combine_nodata.
Print Assumptions c140_extent.
Print Assumptions c140_extent_given.
Print Assumptions c140_s3.
Print Assumptions c141_local_refuted.
Print Assumptions c141_nodata_refuted.
Print Assumptions c141_bounds_refuted.
Print Assumptions c141_disjoint_refuted.
Print Assumptions c141_path_refuted.

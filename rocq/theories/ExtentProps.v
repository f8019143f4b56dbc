(** C202, C203: the extent of the local wind field. *)
From Coq Require Import List Arith ZArith Bool QArith Lia Lqa.
From Verif Require Import CellModel NumModel NumProofs ScaleProps ExtentModel.
Import ListNotations.
Open Scope Q_scope.

Definition inside (e : extent) (x y : Q) : Prop := xMin e <= x <= xMax e /\ yMin e <= y <= yMax e.
(** Between two of the coordinates of the gust field *)
Definition within (l : list Q) (x : Q) : Prop := exists a b, In a l /\ In b l /\ a <= x <= b.
(** On a raster with the north at the top: a number of columns and rows from its corner *)
Definition onRaster (r : raster) (x y : Q) : Prop :=
  exists c l, 0 <= c <= Qn (width r) /\ 0 <= l <= Qn (height r) /\ x == gt0 r + c * gt1 r /\ y == gt3 r + l * gt5 r.
Definition northUp (r : raster) : Prop := 0 < gt1 r /\ gt5 r < 0 /\ gt2 r == 0 /\ gt4 r == 0.

Lemma qmax_le a b x : qmax a b <= x <-> a <= x /\ b <= x.
Proof. unfold qmax. destruct (Qle_bool a b) eqn:E; [apply Qle_bool_iff in E|apply qle_no in E]; split; intros; try split; try lra; destruct H; lra. Qed.
Lemma qmin_le a b x : x <= qmin a b <-> x <= a /\ x <= b.
Proof. unfold qmin. destruct (Qle_bool a b) eqn:E; [apply Qle_bool_iff in E|apply qle_no in E]; split; intros; try split; try lra; destruct H; lra. Qed.
Lemma inside_overlap a b x y : inside (overlap a b) x y <-> inside a x y /\ inside b x y.
Proof. unfold inside, overlap. cbn. rewrite !qmax_le, !qmin_le. tauto. Qed.
Lemma min_in l : forall x, In (amin x l) (x :: l) /\ forall y, In y (x :: l) -> amin x l <= y.
Proof.
  intros x. split.
  - revert x. induction l as [|y l IH]; intros x; unfold amin; cbn [fold_left]; [now left|]. fold (amin (if qlt y x then y else x) l).
    destruct (IH (if qlt y x then y else x)) as [E|H]; [rewrite <- E; destruct (qlt y x); cbn; tauto|cbn; tauto].
  - destruct (amin_spec l x) as (A & B & _). intros y [<-|H]; auto.
Qed.
Lemma max_in l : forall x, In (amax x l) (x :: l) /\ forall y, In y (x :: l) -> y <= amax x l.
Proof.
  intros x. split.
  - revert x. induction l as [|y l IH]; intros x; unfold amax; cbn [fold_left]; [now left|]. fold (amax (if qlt x y then y else x) l).
    destruct (IH (if qlt x y then y else x)) as [E|H]; [rewrite <- E; destruct (qlt x y); cbn; tauto|cbn; tauto].
  - destruct (amax_spec l x) as (A & B & _). intros y [<-|H]; auto.
Qed.
Lemma within_spec x l v : within (x :: l) v <-> amin x l <= v <= amax x l.
Proof.
  destruct (min_in l x) as [Im Lm]. destruct (max_in l x) as [IM LM]. split.
  - intros (a & b & Ia & Ib & H). specialize (Lm a Ia). specialize (LM b Ib). lra.
  - intros H. exists (amin x l), (amax x l). auto.
Qed.
Lemma raster_spec r x y : northUp r -> inside (rasterExtent r) x y <-> onRaster r x y.
Proof.
  intros (P1 & P5 & Z2 & Z4). unfold inside, rasterExtent, onRaster. cbn. rewrite Z2, Z4.
  assert (N1 : ~ gt1 r == 0) by lra. assert (N5 : ~ gt5 r == 0) by lra. split.
  - intros ((X1 & X2) & (Y1 & Y2)). exists ((x - gt0 r) / gt1 r), ((y - gt3 r) / gt5 r).
    assert (Ec : (x - gt0 r) / gt1 r * gt1 r == x - gt0 r) by (field; exact N1).
    assert (El : (y - gt3 r) / gt5 r * gt5 r == y - gt3 r) by (field; exact N5).
    set (c := (x - gt0 r) / gt1 r) in *. set (l := (y - gt3 r) / gt5 r) in *.
    repeat split; try lra.
    + apply (Qmult_le_r _ _ (gt1 r)); [exact P1|]. lra.
    + apply (Qmult_le_r _ _ (gt1 r)); [exact P1|]. lra.
    + apply (Qmult_le_r _ _ (- gt5 r)); [lra|]. lra.
    + apply (Qmult_le_r _ _ (- gt5 r)); [lra|]. lra.
  - intros (c & l & (C1 & C2) & (L1 & L2) & -> & ->).
    assert (0 <= c * gt1 r) by (apply Qmult_le_0_compat; lra).
    assert (c * gt1 r <= Qn (width r) * gt1 r) by (apply Qmult_le_compat_r; lra).
    assert (0 <= l * - gt5 r) by (apply Qmult_le_0_compat; lra).
    assert (l * - gt5 r <= Qn (height r) * - gt5 r) by (apply Qmult_le_compat_r; lra). repeat split; lra.
Qed.

(** ** C202 *)
(** A complete extent is used, and no file is looked at *)
Theorem c202_given : forall a b c d gust wm,
  computeExtent {| g_xMin := Some a; g_xMax := Some b; g_yMin := Some c; g_yMax := Some d |} gust wm =
  Some {| xMin := a; xMax := b; yMin := c; yMax := d |}.
Proof. reflexivity. Qed.
(** Otherwise the extent holds the points that are both between the points of the gust field and on the raster *)
Theorem c202_both : forall g lon lat r, complete g = None -> lon <> [] -> lat <> [] -> northUp r ->
  exists e, computeExtent g (Some (lon, lat)) (Some r) = Some e /\
    forall x y, inside e x y <-> within lon x /\ within lat y /\ onRaster r x y.
Proof.
  intros g lon lat r C Nx Ny U. unfold computeExtent. rewrite C. destruct lon as [|a lon]; [congruence|]. destruct lat as [|b lat]; [congruence|].
  cbn [gustExtent]. eexists. split; [reflexivity|]. intros x y. rewrite inside_overlap, raster_spec by exact U.
  rewrite !within_spec. unfold inside. cbn. tauto.
Qed.
(** The cut has the extent as its window; a raster to which it has been applied already is used as a whole *)
Theorem c202_cut : forall tif applied s3 e, (combined tif applied s3 e = Cut (xMin e) (yMax e) (xMax e) (yMin e) <-> tif = false \/ applied = false) /\
  (tif = true -> applied = true -> combined tif applied s3 e = if s3 then Downloaded else AsItIs).
Proof. intros [|] [|] [|] e; cbn; split; try (split; intros; try discriminate; auto; destruct H; discriminate); try discriminate; reflexivity. Qed.

(** ** C203 *)
(** An extent with a key missing is not used, not even its other keys *)
Theorem c203_partial_refuted : forall g gust wm, complete g = None ->
  computeExtent g gust wm = computeExtent {| g_xMin := None; g_xMax := None; g_yMin := None; g_yMax := None |} gust wm.
Proof. intros g gust wm C. unfold computeExtent. rewrite C. reflexivity. Qed.
(** An extent that is the wrong way round passes the check of its validity, and holds no point *)
Theorem c203_inverted_refuted : forall a b c d gust wm, b < a ->
  exists e, computeExtent {| g_xMin := Some a; g_xMax := Some b; g_yMin := Some c; g_yMax := Some d |} gust wm = Some e /\
    forall x y, ~ inside e x y.
Proof. intros. eexists. split; [reflexivity|]. intros x y [[H1 H2] _]. cbn in *. lra. Qed.
(** A gust field and a raster apart from each other give an extent the wrong way round and no message *)
Theorem c203_apart_refuted : forall g lon lat r, complete g = None -> lon <> [] -> lat <> [] -> northUp r ->
  (forall x, In x lon -> gt0 r + Qn (width r) * gt1 r < x) ->
  exists e, computeExtent g (Some (lon, lat)) (Some r) = Some e /\ xMax e < xMin e.
Proof.
  intros g lon lat r C Nx Ny U H. unfold computeExtent. rewrite C. destruct lon as [|a lon]; [congruence|]. destruct lat as [|b lat]; [congruence|].
  cbn [gustExtent]. eexists. split; [reflexivity|]. cbn. destruct U as (_ & _ & Z2 & _).
  destruct (min_in lon a) as [Im _]. specialize (H _ Im).
  pose proof (proj1 (qmax_le (amin a lon) (gt0 r) _) (Qle_refl _)) as [M _].
  pose proof (proj1 (qmin_le (amax a lon) (gt0 r + Qn (width r) * gt1 r + Qn (height r) * gt2 r) _) (Qle_refl _)) as [_ M2].
  assert (Sg : gt0 r + Qn (width r) * gt1 r + Qn (height r) * gt2 r == gt0 r + Qn (width r) * gt1 r) by (rewrite Z2; ring). lra.
Qed.
(** A raster stored from south to north: no point is inside, wherever the gust field is *)
Theorem c203_south_refuted : forall g lon lat r, complete g = None -> lon <> [] -> lat <> [] ->
  gt4 r == 0 -> 0 < gt5 r -> (0 < height r)%nat ->
  exists e, computeExtent g (Some (lon, lat)) (Some r) = Some e /\ forall x y, ~ inside e x y.
Proof.
  intros g lon lat r C Nx Ny Z4 P5 Hh. unfold computeExtent. rewrite C. destruct lon as [|a lon]; [congruence|]. destruct lat as [|b lat]; [congruence|].
  cbn [gustExtent]. eexists. split; [reflexivity|]. intros x y. rewrite inside_overlap. intros [_ [_ [Y1 Y2]]]. cbn in Y1, Y2. rewrite Z4 in Y1.
  assert (0 < Qn (height r)) by (unfold Qn; change 0 with (inject_Z 0); rewrite <- Zlt_Qlt; lia).
  assert (0 < Qn (height r) * gt5 r) by (apply Qmult_lt_0_compat; assumption). lra.
Qed.
(** A turned raster: a corner of it is outside of the extent taken for it *)
Theorem c203_turned_refuted : let r := {| width := 10; height := 10; gt0 := 0; gt1 := 1; gt2 := 1; gt3 := 0; gt4 := 1; gt5 := - (1) |} in
  let corner := (gt0 r + Qn 10 * gt1 r, gt3 r + Qn 10 * gt4 r) in ~ inside (rasterExtent r) (fst corner) (snd corner).
Proof. cbn. intros [_ [_ H]]. cbn in H. vm_compute in H. congruence. Qed.
(** The cells of the gust field reach half a cell beyond its outer points, the extent does not *)
Theorem c203_edge_refuted : forall g lon lat r e x y, complete g = None -> computeExtent g (Some (lon, lat)) (Some r) = Some e ->
  (forall a, In a lon -> x < a) -> ~ inside e x y.
Proof.
  intros g lon lat r e x y C E H. unfold computeExtent in E. rewrite C in E. destruct lon as [|a lon]; [discriminate|]. destruct lat as [|b lat]; [discriminate|].
  cbn [gustExtent] in E. injection E as <-. rewrite inside_overlap. intros [[[X _] _] _]. cbn in X.
  destruct (min_in lon a) as [Im _]. specialize (H _ Im). lra.
Qed.

(** ** Examples *)
Example c202_met : exists e, computeExtent {| g_xMin := None; g_xMax := Some 1; g_yMin := None; g_yMax := None |} (Some ([148; 149; 150], [-21; -20]))
    (Some {| width := 4; height := 2; gt0 := 147; gt1 := 1 # 2; gt2 := 0; gt3 := -19; gt4 := 0; gt5 := - (1) |}) = Some e /\
  xMin e == 148 /\ xMax e == 149 /\ yMin e == -21 /\ yMax e == -20.
Proof. eexists. split; [reflexivity|]. repeat split; reflexivity. Qed.
Example c203_apart_met : exists e, computeExtent {| g_xMin := None; g_xMax := None; g_yMin := None; g_yMax := None |} (Some ([158; 159], [-21; -20]))
    (Some {| width := 4; height := 2; gt0 := 147; gt1 := 1 # 2; gt2 := 0; gt3 := -19; gt4 := 0; gt5 := - (1) |}) = Some e /\ xMax e < xMin e.
Proof. eexists. split; reflexivity. Qed.

Print Assumptions c202_given.
Print Assumptions c202_both.
Print Assumptions c202_cut.
Print Assumptions c203_partial_refuted.
Print Assumptions c203_inverted_refuted.
Print Assumptions c203_apart_refuted.
Print Assumptions c203_south_refuted.
Print Assumptions c203_turned_refuted.
Print Assumptions c203_edge_refuted.

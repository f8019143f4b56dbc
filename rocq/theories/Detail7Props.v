(** Further details of the hazard figures, the evaluation maps, the scale bar and the distribution objects. *)
From Coq Require Import Reals String List Arith ZArith Lia Bool QArith Qround Lqa.
From Verif Require Import Base CellModel CellProofs NumModel SampModel SampProofs FitModel CurveModel CurveProps EnsModel EvdModel CircleModel CircleProofs BarModel.
Import ListNotations.
Local Open Scope Q_scope.

(** ** C172 Levels of the maps: from the first to the last at equal steps, in the unit of the label *)
Definition levelTable : list (string * (string * (Q * Q * Q))) :=
  [("mps"%string, ("m/s"%string, (30, 100, 5))); ("mph"%string, ("mi/h"%string, (80, 220, 10))); ("kts"%string, ("kts"%string, (60, 200, 10)));
   ("kph"%string, ("km/h"%string, (80, 360, 20))); ("kmh"%string, ("km/h"%string, (80, 360, 20)))].
Theorem c172_levels : forall u label lo hi step, In (u, (label, (lo, hi, step))) levelTable ->
  exists lv, plotUnits u = Some (label, lv) /\ List.length lv = 15%nat /\ nth 0 lv 0 == lo /\ last lv 0 == hi /\
    (forall k, (S k < 15)%nat -> (nth (S k) lv 0 == nth k lv 0 + step)%Q).
Proof.
  intros u label lo hi step H. cbn [In levelTable] in H.
  destruct H as [H|[H|[H|[H|[H|[]]]]]]; injection H as <- <- <- <- <-; eexists; (split; [reflexivity|]); (split; [reflexivity|]);
    (split; [reflexivity|]); (split; [reflexivity|]); intros k K; do 14 (destruct k as [|k]; [reflexivity|]); lia.
Qed.
(** The range is drawn exactly if it is wanted and both bounds of the shortest interval are there and positive in the
    unit of the figure, and then shows both bounds for every interval *)
Theorem c172_range : forall pi units ci N lons lats years wspd wlow wup p recs f i j,
  placeCurve pi units ci N lons lats years wspd wlow wup p recs = Drawn f ->
  findIndex lons (snd (fst p)) = Some i -> findIndex lats (snd p) = Some j ->
  (f_range f <> None <-> ci = true /\ exists a b, wlow 0%nat j i = Some a /\ wup 0%nat j i = Some b /\
     (0 < convert pi a "mps" units)%Q /\ (0 < convert pi b "mps" units)%Q) /\
  (forall r, f_range f = Some r -> ci = true /\ List.length r = List.length years /\
     forall k, (k < List.length years)%nat ->
       nth k r (0, (None, None)) = (nth k years 0, (option_map (fun v => convert pi v "mps" units) (wlow k j i),
                                                    option_map (fun v => convert pi v "mps" units) (wup k j i)))).
Proof.
  intros until j. intros H Ei Ej. unfold placeCurve in H. rewrite Ei, Ej in H.
  destruct (plotUnits units) as [[lab lv]|]; [|discriminate]. destruct (allEvents N recs); [|discriminate]. cbv beta iota zeta in H.
  destruct (present _) as [|v0 vs] eqn:EP; [discriminate|].
  assert (NE : years <> []) by (intros ->; discriminate EP). clear EP.
  match type of H with Drawn ?g = _ => assert (EF : f_range f = f_range g) by (injection H as <-; reflexivity) end. clear H. cbn [f_range] in EF.
  rewrite EF. clear EF f. destruct ci.
  - set (cl := column pi units years wlow j i). set (cu := column pi units years wup j i).
    assert (R : rangeShown cl cu = true <-> exists a b, wlow 0%nat j i = Some a /\ wup 0%nat j i = Some b /\
       (0 < convert pi a "mps" units)%Q /\ (0 < convert pi b "mps" units)%Q).
    { unfold cl, cu, column. destruct years as [|y ys]; [congruence|]. cbn [List.length seq map rangeShown].
      rewrite andb_true_iff. unfold positive. destruct (wlow 0%nat j i) as [a|], (wup 0%nat j i) as [b|]; cbn [option_map]; rewrite ?qlt_iff.
      - split; [intros [A B]; exists a, b; auto|]. intros (a' & b' & Ea & Eb & A & B). injection Ea as <-. injection Eb as <-. auto.
      - split; [intros [_ C]; discriminate|]. intros (? & ? & _ & C & _). discriminate.
      - split; [intros [C _]; discriminate|]. intros (? & ? & C & _). discriminate.
      - split; [intros [C _]; discriminate|]. intros (? & ? & C & _). discriminate. }
    split.
    + rewrite <- R. destruct (rangeShown cl cu); [split; [auto|discriminate]|split; [congruence|intros [_ C]; discriminate]].
    + intros r E. destruct (rangeShown cl cu); [|discriminate]. injection E as <-. split; [reflexivity|].
      assert (L1 : List.length cl = List.length years) by (unfold cl, column; now rewrite map_length, seq_length).
      assert (L2 : List.length cu = List.length years) by (unfold cu, column; now rewrite map_length, seq_length).
      split; [rewrite !combine_length; lia|]. intros k K.
      assert (NT : forall w, nth k (column pi units years w j i) None = option_map (fun v => convert pi v "mps" units) (w k j i)).
      { intros w. unfold column. set (g := fun k => _). rewrite (nth_indep _ None (g 0%nat)) by now rewrite map_length, seq_length.
        rewrite map_nth, seq_nth by exact K. reflexivity. }
      rewrite combine_nth by (rewrite combine_length; lia). rewrite combine_nth by lia. unfold cl, cu. now rewrite !NT.
  - assert (Z : rangeShown (map (fun _ => Some 0) years) (map (fun _ => Some 0) years) = false) by (destruct years; [congruence|reflexivity]).
    rewrite Z. split; [split; [congruence|intros [C _]; discriminate]|discriminate].
Qed.
(** All places are treated unless one fails *)
Theorem c172_all : forall pi units ci N lons lats years wspd wlow wup places records,
  snd (plotCurves pi units ci N lons lats years wspd wlow wup places records) = true <->
  (forall p, In p places -> placeCurve pi units ci N lons lats years wspd wlow wup p (records (fst (fst p))) <> Failed).
Proof.
  intros until records. induction places as [|p r IH]; cbn [plotCurves]; [split; [intros _ p []|reflexivity]|].
  destruct (placeCurve pi units ci N lons lats years wspd wlow wup p (records (fst (fst p)))) as [| |f] eqn:E.
  - cbn. split; [discriminate|]. intros H. exfalso. apply (H p (or_introl eq_refl)), E.
  - rewrite IH. split; intros H q; [intros [<-|I]; [congruence|now apply H]|intros I; apply H; now right].
  - destruct (plotCurves pi units ci N lons lats years wspd wlow wup r records) as [fs ok]. cbn [snd] in *. rewrite IH.
    split; intros H q; [intros [<-|I]; [congruence|now apply H]|intros I; apply H; now right].
Qed.
Example c172_all_ex : exists p f, placeCurve 3 "mps" true 1 [10] [-(10)] [1; 100] (fun _ _ _ => Some 50) (fun _ _ _ => Some 40) (fun _ _ _ => Some 60) p [50] = Drawn f /\ f_range f <> None.
Proof. exists (7%nat, 10, -(10)). eexists. split; [reflexivity|discriminate]. Qed.

(** ** C179 The axes of the genesis density: whole degrees from the lower limit on, the last at most a tenth beyond the
    upper limit *)
Lemma arange_in a b x : In x (arange a b 1) <-> exists k : nat, x = a + inject_Z (Z.of_nat k) * 1 /\ (x < b)%Q.
Proof.
  unfold arange. rewrite in_map_iff.
  assert (G : forall k : nat, (k < Z.to_nat (Qceiling ((b - a) / 1)))%nat <-> (a + inject_Z (Z.of_nat k) * 1 < b)%Q).
  { intros k. assert (E : (b - a) / 1 == b - a) by field. rewrite (Qceiling_comp _ _ E).
    assert (X : (Z.of_nat k < Qceiling (b - a))%Z <-> (inject_Z (Z.of_nat k) < b - a)%Q) by (rewrite ceil_lt; tauto).
    split; intros H.
    - assert (Z.of_nat k < Qceiling (b - a))%Z by lia. apply X in H0. lra.
    - assert (inject_Z (Z.of_nat k) < b - a)%Q by lra. apply X in H0. lia. }
  split.
  - intros (k & E & I). apply in_seq in I. exists k. split; [now symmetry|]. rewrite <- E. apply G. lia.
  - intros (k & E & L). exists k. split; [now symmetry|]. apply in_seq. rewrite E in L. apply G in L. lia.
Qed.
Theorem c179_axes : forall g x,
  (In x (gLons g) <-> exists k : nat, x = gxMin g + inject_Z (Z.of_nat k) * 1 /\ (x < gxMax g + (1 # 10))%Q) /\
  (In x (gLats g) <-> exists k : nat, x = gyMin g + inject_Z (Z.of_nat k) * 1 /\ (x < gyMax g + (1 # 10))%Q).
Proof. intros g x. split; apply arange_in. Qed.
Example c179_axes_ex : gLons {| gxMin := 110; gxMax := 112; gyMin := -(20); gyMax := -(19) |} = [110 + 0 * 1; 110 + 1 * 1; 110 + 2 * 1].
Proof. reflexivity. Qed.

(** ** C178 A distance that is not a number is never found and the search does not end *)
Theorem c178_undefined_refuted : forall dist start e L tol, (forall p, dist start p = None) -> (0 < tol)%R ->
  forall n, distanceAlong n dist start e L tol = inr Running.
Proof.
  intros dist start e L tol H T n. unfold distanceAlong. rewrite H. cbn [nlt].
  destruct (rle tol 0) eqn:E; [exfalso; unfold rle in E; destruct (Rle_dec tol 0) as [C|C]; [exact (Rlt_not_le _ _ T C)|discriminate]|].
  enough (G : forall l r, bisect n dist start L tol l r = inr Running) by apply G. clear e E. induction n; intros l r; cbn [bisect]; rewrite H; cbn [isclose]; [reflexivity|].
  rewrite H. cbn [nlt]. apply IHn.
Qed.

(** ** C182 What the distribution objects do for data that can be filled *)
Theorem c182_filled_refuted : forall data intervals numsim nodata, data <> [] -> (List.length data <= empDays numsim)%nat ->
  objectFit POWERobj data intervals numsim nodata = POk (map (fun _ => nodata) intervals) nodata nodata nodata /\
  objectFit EMPobj data intervals numsim nodata = PRaise NameError /\
  objectFit GEVobj data intervals numsim nodata = PRaise NameError /\ objectFit GPDobj data intervals numsim nodata = PRaise NameError.
Proof.
  intros data intervals numsim nodata N L. unfold objectFit.
  assert (E : ((empDays numsim <? List.length data)%nat || (List.length data =? 0)%nat) = false).
  { apply orb_false_iff. split; [apply Nat.ltb_ge, L|]. destruct data; [congruence|reflexivity]. }
  rewrite E. auto.
Qed.
Example c182_filled_ex : [30%Q] <> [] /\ (List.length [30%Q] <= empDays 1)%nat.
Proof. split; [discriminate|vm_compute; lia]. Qed.

Print Assumptions c172_levels.
Print Assumptions c172_range.
Print Assumptions c172_all.
Print Assumptions c179_axes.
Print Assumptions c178_undefined_refuted.
Print Assumptions c182_filled_refuted.

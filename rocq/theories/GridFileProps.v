(** C60, C109: ASCII grid files and sampling of grids. *)
From Coq Require Import List Arith ZArith Lia Bool QArith Qabs Lqa.
From Verif Require Import CellModel GenModel NumModel GridFileModel GridFileProofs.
Import ListNotations.
Open Scope Q_scope.

(** * C60 *)
(** Missing: latitudes from south to north, unequal spacing, values equal to the missing value,
    and files that exist already, see below.  A grid with rows from north to south comes back
    with its coordinates and its formatted values; missing values become NaN. *)
Theorem c60_round_trip_partial : forall fmt data lon lat delta nodata x0 y0,
  0 < delta -> lon <> [] -> lat <> [] ->
  (forall i, (i < List.length lon)%nat -> nth i lon 0 == x0 + inject_Z (Z.of_nat i) * delta) ->
  (forall i, (i < List.length lat)%nat ->
     nth i lat 0 == y0 + inject_Z (Z.of_nat (List.length lat - 1 - i)) * delta) ->
  List.length data = List.length lat -> (forall row, In row data -> List.length row = List.length lon) ->
  exists f, grdSave fmt false false data lon lat delta nodata = SaveOk f /\
    exists lon' lat' d, grdRead f = Some (lon', lat', d) /\ Forall2 Qeq lon' lon /\ Forall2 Qeq lat' lat /\
      d = map (map (fun v => if Qeq_bool (fmt v) nodata then None else Some (fmt v))) data.
Proof.
  intros fmt data lon lat delta nodata x0 y0 D NL NT R S LD LR.
  destruct (save_read fmt data lon lat delta nodata x0 y0 D NL NT R LD LR) as (f & A & lon' & lat' & d & B & C & (y & E & ->) & F).
  { intros y ly ->. now apply (amin_regularDown y ly y0 delta). }
  exists f. split; [exact A|]. exists lon', (rev (axis (List.length lat) delta y)), d.
  split; [exact B|]. split; [exact C|]. split; [|exact F]. now apply (axis_rev lat y0).
Qed.
Print Assumptions c60_round_trip_partial.
(** Rows from south to north, the order of the grids used elsewhere in the program: the
    latitudes come back in reverse order and the rows do not, so every value moves to the
    latitude at the other side of the grid. *)
Theorem c60_south_to_north_refuted :
  (forall fmt data lon lat delta nodata x0 y0, 0 < delta -> lon <> [] -> lat <> [] ->
    (forall i, (i < List.length lon)%nat -> nth i lon 0 == x0 + inject_Z (Z.of_nat i) * delta) ->
    (forall i, (i < List.length lat)%nat -> nth i lat 0 == y0 + inject_Z (Z.of_nat i) * delta) ->
    List.length data = List.length lat -> (forall row, In row data -> List.length row = List.length lon) ->
    exists f, grdSave fmt false false data lon lat delta nodata = SaveOk f /\
      exists lon' lat' d, grdRead f = Some (lon', lat', d) /\ Forall2 Qeq lon' lon /\ Forall2 Qeq lat' (rev lat) /\
        d = map (map (fun v => if Qeq_bool (fmt v) nodata then None else Some (fmt v))) data) /\
  (exists f, grdSave (fun v => v) false false [[1; 2]; [3; 4]] [0; 1] [10; 11] 1 (-9999) = SaveOk f /\
     exists lon' lat', grdRead f = Some (lon', lat', [[Some 1; Some 2]; [Some 3; Some 4]]) /\ nth 0 lat' 0 == 11).
Proof.
  split.
  - intros fmt data lon lat delta nodata x0 y0 D NL NT R S LD LR.
    destruct (save_read fmt data lon lat delta nodata x0 y0 D NL NT R LD LR) as (f & A & lon' & lat' & d & B & C & (y & E & ->) & F).
    { intros y ly ->. now apply (amin_regular y ly y0 delta). }
    exists f. split; [exact A|]. exists lon', (rev (axis (List.length lat) delta y)), d.
    split; [exact B|]. split; [exact C|]. split; [|exact F].
    rewrite <- (rev_length lat). apply (axis_rev (rev lat) y0); [exact E|]. now apply regular_rev.
  - eexists. split; [reflexivity|]. do 2 eexists. split; reflexivity.
Qed.
Print Assumptions c60_south_to_north_refuted.
(** A file that exists is never replaced. *)
Theorem c60_existing_refuted : forall fmt gz data lon lat delta nodata f,
  grdSave fmt true gz data lon lat delta nodata <> SaveOk f.
Proof. intros. destruct gz; discriminate. Qed.
Print Assumptions c60_existing_refuted.
(** One spacing is stored for both directions. *)
Theorem c60_spacing_refuted : exists f lon' lat' d,
  grdSave (fun v => v) false false [[1; 2]; [3; 4]] [0; 2] [11; 10] 1 (-9999) = SaveOk f /\
  grdRead f = Some (lon', lat', d) /\ nth 1 lon' 0 == 1.
Proof. do 4 eexists. split; [reflexivity|]. split; reflexivity. Qed.
Print Assumptions c60_spacing_refuted.
Example c60_example : exists f lon' lat',
  grdSave (fun v => v) false false [[1; -9999]; [3; 4]] [0; 1] [11; 10] 1 (-9999) = SaveOk f /\
  grdRead f = Some (lon', lat', [[Some 1; None]; [Some 3; Some 4]]) /\ Forall2 Qeq lat' [11; 10].
Proof. do 3 eexists. split; [reflexivity|]. split; [reflexivity|]. repeat constructor. Qed.

(** * C109 *)
Definition ascending (a : list Q) : Prop := forall i j, (i < j < List.length a)%nat -> nth i a 0 < nth j a 0.
(** Missing: the rows, see below.  The column of a point on a grid longitude is the right one, and
    for a longitude between two columns it is the eastern one. *)
Theorem c109_column_partial : forall lon x, ascending lon ->
  (forall k, (k < List.length lon)%nat -> 0 <= nth k lon 0 < 360 -> x == nth k lon 0 -> npSearch lon (qmod x 360) = k) /\
  (forall k, (S k < List.length lon)%nat -> 0 <= x < 360 -> nth k lon 0 < x <= nth (S k) lon 0 ->
     npSearch lon (qmod x 360) = S k).
Proof.
  intros lon x A. split.
  - intros k K B E. apply npSearch_at; auto. rewrite qmod_small; lra.
  - intros k K B E. assert (M : qmod x 360 == x) by (apply qmod_small; lra).
    destruct (npSearch_sorted lon (qmod x 360)) as (P & Q & R).
    { intros i j H. destruct (Nat.eq_dec i j) as [->|]; [lra|]. apply Qlt_le_weak, A. lia. }
    destruct (lt_eq_lt_dec (npSearch lon (qmod x 360)) (S k)) as [[L|L]|L]; [|exact L|].
    + assert (qmod x 360 <= nth k lon 0) by (apply R; lia). lra.
    + specialize (Q (S k) L). lra.
Qed.
Print Assumptions c109_column_partial.
(** A grid with latitudes from south to north and rows in that order: at every grid point the
    value returned is that of the row at the other side of the grid. *)
Theorem c109_mirrored_refuted :
  (forall (V : Type) lon lat (data : list (list V)) j k, ascending lon -> ascending lat ->
    List.length data = List.length lat -> (j < List.length lat)%nat -> (k < List.length lon)%nat ->
    0 <= nth k lon 0 < 360 ->
    sampleGrid lon lat data (nth k lon 0) (nth j lat 0) =
      match nth_error data (List.length lat - 1 - j) with Some row => nth_error row k | None => None end) /\
  sampleGrid [0; 1] [10; 11] [[1; 2]; [3; 4]] 1 11 = Some 2.
Proof.
  split; [|reflexivity]. intros V lon lat data j k A B L J K R. unfold sampleGrid.
  rewrite (npSearch_at lat j B J) by reflexivity.
  rewrite rev_error by lia. rewrite L.
  destruct (nth_error data (List.length lat - 1 - j)) as [row|]; [|reflexivity].
  rewrite (npSearch_at lon k A K); [reflexivity|]. apply qmod_small; lra.
Qed.
Print Assumptions c109_mirrored_refuted.
(** A grid with latitudes from north to south, which is what reading an ASCII file gives: the
    search for the row ends at the first row (after the reversal, the southern edge) or beyond the
    last, whatever the point. *)
Theorem c109_north_to_south_refuted :
  (forall (V : Type) lon lat (data : list (list V)) x y, lat <> [] -> List.length data = List.length lat ->
    (forall i j, (i < j < List.length lat)%nat -> nth j lat 0 < nth i lat 0) ->
    (nth (List.length lat / 2) lat 0 < y -> sampleGrid lon lat data x y = None) /\
    (y <= nth (List.length lat / 2) lat 0 -> sampleGrid lon lat data x y =
       match nth_error data (List.length lat - 1) with Some row => nth_error row (npSearch lon (qmod x 360)) | None => None end)) /\
  sampleGrid [0; 1] [12; 11; 10] [[1; 2]; [3; 4]; [5; 6]] 0 11 = Some 5 /\
  sampleGrid [0; 1] [12; 11; 10] [[1; 2]; [3; 4]; [5; 6]] 0 12 = None.
Proof.
  split; [|split; reflexivity]. intros V lon lat data x y N L D.
  assert (D' : forall i j, (i <= j < List.length lat)%nat -> nth j lat 0 <= nth i lat 0).
  { intros i j H. destruct (Nat.eq_dec i j) as [->|]; [lra|]. apply Qlt_le_weak, D. lia. }
  assert (P : (0 < List.length lat)%nat) by (destruct lat; [congruence|cbn; lia]).
  unfold sampleGrid. rewrite (npSearch_descending lat y N D').
  split; intros H.
  - rewrite (proj2 (CellProofs.qlt_iff _ _) H).
    rewrite (proj2 (nth_error_None (rev data) (List.length lat))); [reflexivity|rewrite rev_length; lia].
  - rewrite (proj2 (GenProofs.qlt_false_iff _ _) H). rewrite rev_error by lia. now rewrite L, Nat.sub_0_r.
Qed.
Print Assumptions c109_north_to_south_refuted.
(** Between grid points the value is not that of the closest one. *)
Theorem c109_nearest_refuted : npSearch [0; 1; 2] (qmod (11 # 10) 360) = 2%nat /\
  Qabs (1 - (11 # 10)) < Qabs (2 - (11 # 10)).
Proof. split; reflexivity. Qed.
Print Assumptions c109_nearest_refuted.
Example c109_example : sampleGrid [0; 1; 2] [10; 11; 12] [[1; 2; 3]; [4; 5; 6]; [7; 8; 9]] 361 10 = Some 8 /\
  npSearch [0; 1; 2] (qmod (-(358)) 360) = 2%nat /\ npSearch [0; 1; 2] (qmod (-(3)) 360) = 3%nat.
Proof. repeat split; reflexivity. Qed.

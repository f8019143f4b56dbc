(** Local wind fields from wind multipliers: ProcessMultipliers/processMultipliers.py:811-1107.
    Rasters are functions from (row, column). Reprojection, GDAL input and output and the
    float32 rounding of the stored values are not modelled; reading a band never fails. *)
From Coq Require Import String QArith.
From Verif Require Import Base TileModel.
Close Scope Q_scope. Close Scope string_scope. Open Scope list_scope. Open Scope Z_scope.

(** 871-881 and 1082-1092: [indices], the sector table. *)
Record sector := { s_dir : string; s_min : Q; s_max : Q }.
Definition indices : list sector := [
  {| s_dir := "n";  s_min := 0;            s_max := 225#10 |};
  {| s_dir := "ne"; s_min := 225#10;  s_max := 675#10 |};
  {| s_dir := "e";  s_min := 675#10;  s_max := 1125#10 |};
  {| s_dir := "se"; s_min := 1125#10; s_max := 1575#10 |};
  {| s_dir := "s";  s_min := 1575#10; s_max := 2025#10 |};
  {| s_dir := "sw"; s_min := 2025#10; s_max := 2475#10 |};
  {| s_dir := "w";  s_min := 2475#10; s_max := 2925#10 |};
  {| s_dir := "nw"; s_min := 2925#10; s_max := 3375#10 |};
  {| s_dir := "n";  s_min := 3375#10; s_max := 360 |}].
(** 882, 1081: [band_numbers_for_indices_in_geotiff]. *)
Definition band_numbers : list nat := [2; 3; 1; 6; 5; 7; 8; 4; 2]%nat.
(** 1168: [self.dirns]. *)
Definition dirns : list string := ["e"; "n"; "ne"; "nw"; "s"; "se"; "sw"; "w"]%string.

Definition q_ltb (a b : Q) : bool := negb (Qle_bool b a).
(** 894-895, 1101-1102: the mask of one sector. *)
Definition in_sector (b : Q) (s : sector) : bool := Qle_bool (s_min s) b && q_ltb b (s_max s).

(** 657-659, 682-684: nodata in a multiplier band counts as 1 ([None] is nodata). *)
Definition fill1 (m : option Q) : Q := match m with Some m => m | None => 1%Q end.

(** 1099-1103, one cell: [m4_all] holds the multiplier of the cell in each of the bands; the loop
    over the nine sectors overwrites the initial zero where the mask holds.
    [None]: IndexError on the list of bands. *)
Fixpoint cell_loop (ss : list (sector * nat)) (wind bear : Q) (m4_all : list Q) (acc : Q) : option Q :=
  match ss with
  | [] => Some acc
  | (s, band) :: ss' =>
      match nth_error m4_all (band - 1) with
      | None => None
      | Some m => cell_loop ss' wind bear m4_all (if in_sector bear s then wind * m else acc)%Q
      end
  end.
Definition seg_cell (wind bear : Q) (m4_all : list Q) : option Q :=
  cell_loop (combine indices band_numbers) wind bear m4_all 0%Q.

(** 1021-1036: bands in the order in which they are opened: per direction from separate files
    ([m4_<dir>.tif]), or bands 1, 2, ... of the combined file, one per direction. *)
Definition source_separate (file : string -> option Q) (dirns : list string) : list Q :=
  map (fun d => fill1 (file d)) dirns.
Definition source_combined (band : nat -> option Q) (dirns : list string) : list Q :=
  map (fun k => fill1 (band k)) (seq 1 (length dirns)).

(** 884-897 processMult, one cell, multipliers from separate files by name. *)
Fixpoint mult_loop (ss : list sector) (wind bear : Q) (file : string -> option Q) (acc : Q) : Q :=
  match ss with
  | [] => acc
  | s :: ss' => mult_loop ss' wind bear file
                  (if in_sector bear s then wind * fill1 (file (s_dir s)) else acc)%Q
  end.
Definition mult_cell_separate wind bear file : Q := mult_loop indices wind bear file 0%Q.
(** 884-897 with the combined file: band numbers from the table. *)
Fixpoint mult_loop_c (ss : list (sector * nat)) (wind bear : Q) (band : nat -> option Q) (acc : Q) : Q :=
  match ss with
  | [] => acc
  | (s, k) :: ss' => mult_loop_c ss' wind bear band
                  (if in_sector bear s then wind * fill1 (band k) else acc)%Q
  end.
Definition mult_cell_combined wind bear band : Q :=
  mult_loop_c (combine indices band_numbers) wind bear band 0%Q.

(** 1038-1048: the segments put on the queue, in order: x_offset, y_offset, width, height, number. *)
Record segment := { x_offset : Z; y_offset : Z; width : Z; height : Z; segment_id : nat }.
(** [range(0, n, step)] for positive [step]. *)
Definition zrange (n step : Z) : list Z :=
  map (fun k => Z.of_nat k * step) (seq 0 (Z.to_nat (zceil n step))).
Definition seg_boxes (cols rows size : Z) : list (Z * Z * Z * Z) :=
  flat_map (fun y => map (fun x =>
      (x, y, if x + size >? cols then cols - x else size,
             if y + size >? rows then rows - y else size)) (zrange cols size)) (zrange rows size).
Definition segments (cols rows size : Z) : list segment :=
  map (fun bk => let '((x, y, w, h), k) := bk in
         {| x_offset := x; y_offset := y; width := w; height := h; segment_id := k |})
      (combine (seg_boxes cols rows size) (seq 1 (length (seg_boxes cols rows size)))).
(** 1038-1039 *)
Definition total_segments (cols rows size : Z) : Z := zceil cols size * zceil rows size.

Section Threads.
  (** The reprojected rasters: wind, bearing, and the multipliers of each cell in the order of
      [source_dir_bands]. *)
  Variables wind bear : Z -> Z -> Q.
  Variable m4 : Z -> Z -> list Q.

  Definition raster := Z -> Z -> option Q.   (* [None]: never written (nodata) *)
  (** 1093-1103: the block of one segment, indexed from zero. *)
  Definition seg_block (s : segment) : Z -> Z -> option Q :=
    fun r c => seg_cell (wind (y_offset s + r) (x_offset s + c)) (bear (y_offset s + r) (x_offset s + c))
                        (m4 (y_offset s + r) (x_offset s + c)).
  (** 1104-1105: [dst_band.WriteArray(local, x_offset, y_offset)], under the output lock. *)
  Definition write_block (o : raster) (s : segment) (b : Z -> Z -> option Q) : raster :=
    fun y x => if (y_offset s <=? y) && (y <? y_offset s + height s) &&
                  (x_offset s <=? x) && (x <? x_offset s + width s)
               then b (y - y_offset s) (x - x_offset s) else o y x.

  (** A worker thread, 1061-1063: [TCheck] at the loop test, [TGet] after a test that found the
      queue non-empty, [TWork] between [get] and the end of the segment, [TDone] returned. *)
  Inductive tpc := TCheck | TGet | TWork (s : segment) | TDone.
  Record tst := { queue : list segment; th : nat -> tpc; img : raster; done_segs : list segment }.
  Variable nt : nat.      (* threads 1..nt *)
  Variable segs : list segment.

  Definition tinit : tst :=
    {| queue := segs; th := fun _ => TCheck; img := fun _ _ => None; done_segs := [] |}.
  Inductive tstep : tst -> tst -> Prop :=
  | ts_nonempty s i : (1 <= i <= nt)%nat -> th s i = TCheck -> queue s <> [] ->
      tstep s {| queue := queue s; th := upd (th s) i TGet; img := img s; done_segs := done_segs s |}
  | ts_empty s i : (1 <= i <= nt)%nat -> th s i = TCheck -> queue s = [] ->
      tstep s {| queue := queue s; th := upd (th s) i TDone; img := img s; done_segs := done_segs s |}
  | ts_get s i g rest : (1 <= i <= nt)%nat -> th s i = TGet -> queue s = g :: rest ->
      tstep s {| queue := rest; th := upd (th s) i (TWork g); img := img s; done_segs := done_segs s |}
  | ts_work s i g : (1 <= i <= nt)%nat -> th s i = TWork g ->
      tstep s {| queue := queue s; th := upd (th s) i TCheck;
                 img := write_block (img s) g (seg_block g); done_segs := done_segs s ++ [g] |}.
  (** 1054-1056: all futures have returned. *)
  Definition all_returned (s : tst) : Prop := forall i, (1 <= i <= nt)%nat -> th s i = TDone.
End Threads.

(** C12, C13, C14. *)
From Coq Require Import String QArith Qabs Qminmax.
From Verif Require Import Base TileModel TileSpec MultModel MultProofs MultThreadProofs.
Close Scope Q_scope. Close Scope string_scope. Open Scope list_scope. Open Scope Z_scope.

(** C12: the queued segments tile the raster, are numbered 1, 2, ..., and there are as many as
    announced (so that filling the bounded queue never blocks). *)
Theorem c12_segments : forall cols rows size, 0 < cols -> 0 < rows -> 0 < size ->
  tiling 0 (cols - 1) 0 (rows - 1) size size
    (map (fun s => (x_offset s, x_offset s + width s, y_offset s, y_offset s + height s))
         (segments cols rows size)) /\
  map segment_id (segments cols rows size) = seq 1 (length (segments cols rows size)) /\
  Z.of_nat (length (segments cols rows size)) = total_segments cols rows size.
Proof.
  intros cols rows size H1 H2 H3.
  exact (conj (c12_tiling cols rows size H1 H2 H3)
        (conj (c12_ids cols rows size) (c12_total cols rows size H1 H2 H3))).
Qed.
Print Assumptions c12_segments.
Example c12_example : map (fun s => (x_offset s, y_offset s, width s, height s)) (segments 5 3 2) =
  [(0, 0, 2, 2); (2, 0, 2, 2); (4, 0, 1, 2); (0, 2, 2, 1); (2, 2, 2, 1); (4, 2, 1, 1)].
Proof. reflexivity. Qed.

(** C13, for any number of threads: every execution is finite and stops with each segment processed
    once and the image of the unsegmented algorithm (multipliers in separate files); the workers
    have then returned or wait on the empty queue. Missing: all workers return. *)
Theorem c13_image_partial : forall wind bear (file : Z -> Z -> string -> option Q) nt cols rows size,
  0 < cols -> 0 < rows -> 0 < size -> (1 <= nt)%nat ->
  always_ends_in (tinit (segments cols rows size))
    (tstep wind bear (fun y x => source_separate (file y x) dirns) nt) (fun s =>
    Permutation (done_segs s) (segments cols rows size) /\
    (forall y x, 0 <= y < rows -> 0 <= x < cols ->
       img s y x = Some (mult_cell_separate (wind y x) (bear y x) (file y x))) /\
    forall i, (1 <= i <= nt)%nat -> th s i = TDone \/ (th s i = TGet /\ queue s = [])).
Proof.
  intros wind bear file nt cols rows size H1 H2 H3 H4.
  destruct (c13_main wind bear (fun y x => source_separate (file y x) dirns) nt cols rows size H1 H2 H3 H4) as [A B].
  split; [exact A|]. intros s S1 S2. destruct (B s S1 S2) as (P & I & T). split; [exact P|]. split; [|exact T].
  intros y x Hy Hx. rewrite I, seg_separate.
  now replace ((0 <=? y) && (y <? rows) && (0 <=? x) && (x <? cols)) with true by lia.
Qed.
Print Assumptions c13_image_partial.
(** The same with the combined multiplier file. *)
Theorem c13_image_combined_partial : forall wind bear (band : Z -> Z -> nat -> option Q)
    (file : Z -> Z -> string -> option Q) nt cols rows size,
  0 < cols -> 0 < rows -> 0 < size -> (1 <= nt)%nat ->
  (forall y x, alphabetical (file y x) (band y x)) ->
  always_ends_in (tinit (segments cols rows size))
    (tstep wind bear (fun y x => source_combined (band y x) dirns) nt) (fun s =>
    Permutation (done_segs s) (segments cols rows size) /\
    (forall y x, 0 <= y < rows -> 0 <= x < cols ->
       img s y x = Some (mult_cell_combined (wind y x) (bear y x) (band y x)) /\
       img s y x = Some (mult_cell_separate (wind y x) (bear y x) (file y x))) /\
    forall i, (1 <= i <= nt)%nat -> th s i = TDone \/ (th s i = TGet /\ queue s = [])).
Proof.
  intros wind bear band file nt cols rows size H1 H2 H3 H4 HA.
  destruct (c13_main wind bear (fun y x => source_combined (band y x) dirns) nt cols rows size H1 H2 H3 H4) as [A B].
  split; [exact A|]. intros s S1 S2. destruct (B s S1 S2) as (P & I & T). split; [exact P|]. split; [|exact T].
  intros y x Hy Hx. rewrite I, (seg_combined _ _ _ _ (HA y x)), (mult_combined _ _ _ _ (HA y x)).
  now replace ((0 <=? y) && (y <? rows) && (0 <=? x) && (x <? cols)) with true by lia.
Qed.
Print Assumptions c13_image_combined_partial.
(** With one worker thread every execution ends with the worker having returned. *)
Theorem c13_one_thread : forall wind bear (file : Z -> Z -> string -> option Q) cols rows size,
  0 < cols -> 0 < rows -> 0 < size ->
  always_ends_in (tinit (segments cols rows size))
    (tstep wind bear (fun y x => source_separate (file y x) dirns) 1) (fun s =>
    all_returned 1 s /\ Permutation (done_segs s) (segments cols rows size) /\
    forall y x, 0 <= y < rows -> 0 <= x < cols ->
       img s y x = Some (mult_cell_separate (wind y x) (bear y x) (file y x))).
Proof.
  intros wind bear file cols rows size H1 H2 H3.
  destruct (c13_single wind bear (fun y x => source_separate (file y x) dirns) cols rows size H1 H2 H3) as [A B].
  split; [exact A|]. intros s S1 S2. destruct (B s S1 S2) as (R & P & I). split; [exact R|]. split; [exact P|].
  intros y x Hy Hx. rewrite I, seg_separate.
  now replace ((0 <=? y) && (y <? rows) && (0 <=? x) && (x <? cols)) with true by lia.
Qed.
Print Assumptions c13_one_thread.
(** C13 fails: with two or more threads, whatever the non-empty list of segments, there is an
    execution after which all segments are done and one worker waits for ever. *)
Theorem c13_hang_refuted : forall wind bear m4 nt, (2 <= nt)%nat -> forall segs, segs <> [] ->
  exists s, star (tstep wind bear m4 nt) (tinit segs) s /\ Permutation (done_segs s) segs /\
    forall s', star (tstep wind bear m4 nt) s s' -> th s' 2%nat = TGet /\ ~ all_returned nt s'.
Proof. exact c13_hang. Qed.
Print Assumptions c13_hang_refuted.
Example c13_segments_nonempty : segments 5 3 2 <> [].
Proof. discriminate. Qed.

(** C14: the multiplier applied is that of the octant nearest to the bearing (centres 45 degrees
    apart), in all four code paths; with the combined file for bands in alphabetical order. *)
Theorem c14_octant : forall wind b file, (0 <= b)%Q -> (b < 360)%Q ->
  exists k d, nth_error ["n"; "ne"; "e"; "se"; "s"; "sw"; "w"; "nw"]%string k = Some d /\
  (forall j, (j < 8)%nat -> (circ_dist b (centre k) <= circ_dist b (centre j))%Q) /\
  mult_cell_separate wind b file = (wind * fill1 (file d))%Q /\
  seg_cell wind b (source_separate file dirns) = Some (wind * fill1 (file d))%Q /\
  forall band, alphabetical file band ->
    mult_cell_combined wind b band = (wind * fill1 (file d))%Q /\
    seg_cell wind b (source_combined band dirns) = Some (wind * fill1 (file d))%Q.
Proof. exact c14_l. Qed.
Print Assumptions c14_octant.
Theorem c14_one_sector : forall b, (0 <= b)%Q -> (b < 360)%Q -> exists s, filter (in_sector b) indices = [s].
Proof. exact c14_unique_l. Qed.
Print Assumptions c14_one_sector.
(** A bearing outside the range (such as the fill value of a cell outside the wind grid) leaves
    the local wind at zero. *)
Theorem c14_outside : forall wind b file, (b < 0 \/ 360 <= b)%Q -> mult_cell_separate wind b file = 0%Q.
Proof. exact c14_outside_l. Qed.
Print Assumptions c14_outside.
Example c14_example : mult_cell_separate 10%Q 350%Q (fun d => if String.eqb d "n" then Some (1#2)%Q else None) = (10 * (1#2))%Q /\
  (circ_dist 350 (centre 0) == 10)%Q.
Proof. split; reflexivity. Qed.

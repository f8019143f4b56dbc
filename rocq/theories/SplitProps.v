(** C04, C05, C06, C57: division of work, region filter, track domain. *)
From Verif Require Import Base SplitModel SplitProofs.
From Coq Require Import QArith Qround.

(** C04: process [rank] of [size] gets exactly the items at positions rank, rank+size, ...
    in their original order; all processes together get every item exactly once; the
    counts differ by at most one. *)
Theorem c04_positions : forall (A : Type) (size rank : nat) (l : list A), (1 <= size)%nat ->
  forall n, nth_error (balanced size rank l) n = nth_error l (rank + n * size).
Proof. exact (fun A size rank l H n => islice_nth size H l rank n). Qed.
Print Assumptions c04_positions.

Theorem c04_partition : forall (A : Type) (size : nat) (l : list A), (1 <= size)%nat ->
  Permutation (flat_map (fun rank => balanced size rank l) (seq 0 size)) l.
Proof. exact (fun A size l H => balanced_perm size l H). Qed.
Print Assumptions c04_partition.

Theorem c04_even : forall (A : Type) (size : nat) (l : list A) (i j : nat), (1 <= size)%nat ->
  (i < size)%nat -> (j < size)%nat ->
  (length (balanced size i l) <= length (balanced size j l) + 1)%nat.
Proof. exact (fun A size l i j H => balanced_sizes size l i j H). Qed.
Print Assumptions c04_even.

Example c04_example : map (fun rank => balanced 3 rank [10; 11; 12; 13; 14; 15; 16]) (seq 0 3)
  = [[10; 13; 16]; [11; 14]; [12; 15]].
Proof. reflexivity. Qed.

(** C05: whatever order each process lists the track directory in, the processes together
    handle exactly the tracks that pass the filter, each on exactly one process. *)
Theorem c05_tracks_partitioned :
  forall (leb : Z -> Z -> bool) load r margin (size : nat) (listing : nat -> list Z) (files : list Z),
  (forall x y, leb x y = true \/ leb y x = true) ->
  (forall x y z, leb x y = true -> leb y z = true -> leb x z = true) ->
  (forall x y, leb x y = true -> leb y x = true -> x = y) ->
  (1 <= size)%nat -> files <> [] ->
  (forall rank, (rank < size)%nat -> Permutation (listing rank) files) ->
  (forall f, In f files -> exists ts, filterTracks (load f) r margin = Some ts) ->
  exists per_rank : nat -> list track,
    (forall rank, (rank < size)%nat ->
       rank_tracks load r margin size rank leb (listing rank) = inl (per_rank rank)) /\
    Permutation (flat_map per_rank (seq 0 size))
      (flat_map (fun f => match filterTracks (load f) r margin with Some t => t | None => [] end) files).
Proof. exact ranks_partition. Qed.
Print Assumptions c05_tracks_partitioned.

(** The filter succeeds whenever every track has a position, so the hypothesis above is met. *)
Theorem c05_filter_total : forall ts r margin, (forall t, In t ts -> pts t <> []) ->
  exists out, filterTracks ts r margin = Some out /\
    forall t, In t out <-> In t ts /\ (forall reg, r = Some reg -> inRegion t reg margin = Some true).
Proof. exact filter_total. Qed.
Print Assumptions c05_filter_total.

Definition ex_reg := {| xMin := 0; xMax := 10; yMin := 0; yMax := 10 |}.
Definition ex_load (f : Z) : list track :=
  if Z.eqb f 1 then [{| tid := 1; pts := [(5, 5)] |}; {| tid := 2; pts := [(50, 5)] |}]
  else [{| tid := 3; pts := [(20, 20); (9, 9)] |}].
Example c05_example :
  (rank_tracks ex_load (Some ex_reg) 1 2 0 Z.leb [2%Z; 1%Z],
   rank_tracks ex_load (Some ex_reg) 1 2 1 Z.leb [1%Z; 2%Z])
  = (inl [{| tid := 1; pts := [(5, 5)] |}], inl [{| tid := 3; pts := [(20, 20); (9, 9)] |}]).
Proof. vm_compute. reflexivity. Qed.

(** C06: a track with a position inside the extended region is kept. *)
Theorem c06_keeps_entering : forall t reg margin p,
  In p (pts t) ->
  xMin reg - margin <= fst p <= xMax reg + margin ->
  yMin reg - margin <= snd p <= yMax reg + margin ->
  inRegion t reg margin = Some true.
Proof. exact keeps_entering. Qed.
Print Assumptions c06_keeps_entering.

(** C06: a discarded track has all positions on one and the same outer side of the region. *)
Theorem c06_discards_outside : forall t reg margin,
  inRegion t reg margin = Some false ->
  (forall p, In p (pts t) -> fst p < xMin reg - margin) \/
  (forall p, In p (pts t) -> xMax reg + margin < fst p) \/
  (forall p, In p (pts t) -> snd p < yMin reg - margin) \/
  (forall p, In p (pts t) -> yMax reg + margin < snd p).
Proof. exact discards_outside. Qed.
Print Assumptions c06_discards_outside.

(** C06: the filter is a bounding box test; a track may be kept without entering. *)
Theorem c06_kept_without_entering : exists t reg margin,
  inRegion t reg margin = Some true /\
  forall p, In p (pts t) -> ~ (xMin reg - margin <= fst p <= xMax reg + margin /\
                              yMin reg - margin <= snd p <= yMax reg + margin).
Proof. exact kept_without_entering. Qed.
Print Assumptions c06_kept_without_entering.

Example c06_example :
  (inRegion {| tid := 1; pts := [(50, 5); (10, 11)] |} ex_reg 1,
   inRegion {| tid := 1; pts := [(50, 5); (51, 5)] |} ex_reg 1) = (Some true, Some false).
Proof. vm_compute. reflexivity. Qed.

(** C57 (the part that holds): the first track handled without a configured domain gets the
    smallest whole-degree box containing it. *)
Theorem c57_first_track_domain_partial : forall t ts,
  pts t <> [] ->
  (forall p, In p (pts t) -> fst p <= 9999 /\ -9999 <= fst p /\ snd p <= 9999 /\ -9999 <= snd p) ->
  exists a b c d rest,
  domains_used None (t :: ts) =
    Some {| xMin := inject_Z a; xMax := inject_Z b; yMin := inject_Z c; yMax := inject_Z d |} :: rest /\
  (forall p, In p (pts t) -> inject_Z a <= fst p <= inject_Z b /\ inject_Z c <= snd p <= inject_Z d) /\
  (forall a' b' c' d' : Z,
     (forall p, In p (pts t) -> inject_Z a' <= fst p <= inject_Z b' /\ inject_Z c' <= snd p <= inject_Z d') ->
     (a' <= a /\ b <= b' /\ c' <= c /\ d <= d')%Z).
Proof. exact first_domain. Qed.
Print Assumptions c57_first_track_domain_partial.

(** C57 is violated: every later track is computed on the first track's domain, which need
    not contain it. *)
Theorem c57_later_track_refuted : exists t1 t2 r1 r2,
  pts t1 <> [] /\ pts t2 <> [] /\
  domains_used None [t1; t2] = [Some r1; Some r2] /\
  forall p, In p (pts t2) -> ~ (xMin r2 <= fst p <= xMax r2).
Proof. exact later_domain. Qed.
Print Assumptions c57_later_track_refuted.

Theorem c57_later_track_general : forall t ts n, pts t <> [] ->
  (n < length ts)%nat ->
  nth_error (domains_used None (t :: ts)) (S n) = Some (setGridLimit t).
Proof. exact later_domain_general. Qed.
Print Assumptions c57_later_track_general.

Example c57_example :
  domains_used None [{| tid := 1; pts := [(3 # 2, 5); (7, -1 # 2)] |}]
  = [Some {| xMin := 1; xMax := 7; yMin := -1; yMax := 5 |}].
Proof. vm_compute. reflexivity. Qed.

(** C11, C65, C66, C67. *)
From Coq Require Import Ascii String QArith.
From Verif Require Import Base MWModel TileSpec NamesModel DbModel DbProofs MWSyncModel MWSyncProofs.
Close Scope Q_scope. Close Scope string_scope. Open Scope list_scope. Open Scope nat_scope.

(** C11: loading the events with any number of workers terminates under every schedule and leaves
    exactly one event row per wind field file, numbered by the position of the file in the list,
    carrying the identifier in the file name, and one wind row per location and event. *)
Theorem c11_events : forall read locations files d0 nw,
  events d0 = [] -> (1 <= nw)%nat ->
  (forall f, In f files -> event_id f <> None /\ read f <> None) ->
  exists d, processEvents read locations files d0 = Some d /\ event_tables read locations files d0 d /\
  always_ends_in (init nw d0) (step (processEvent read locations) storeEvent (work files) nw) (fun s =>
    finished nw s /\ Permutation (comp s) (work files) /\
    event_tables read locations files d0 (out s) /\
    (forall i, (1 <= i <= nw)%nat -> down s i = [] /\ up s i = [])).
Proof. exact c11_events_l. Qed.
Print Assumptions c11_events.
(** C11: track distance rows are the same for every number of workers, as a multiset. *)
Theorem c11_tracks : forall load locations files d0 nw, (1 <= nw)%nat ->
  (forall f, In f files -> load f <> None) ->
  exists d, serial (processTrack locations load) insertTracks d0 files = Some d /\
  always_ends_in (init nw d0) (step (processTrack locations load) insertTracks files nw) (fun s =>
    finished nw s /\ Permutation (comp s) files /\ same_tables (out s) d /\
    (forall i, (1 <= i <= nw)%nat -> down s i = [] /\ up s i = [])).
Proof. exact c11_tracks_l. Qed.
Print Assumptions c11_tracks.
(** C11: the same when the MPI library may block any send until its message is taken. *)
Theorem c11_events_any_buffering : forall read locations files d0 nw,
  events d0 = [] -> (1 <= nw)%nat ->
  (forall f, In f files -> event_id f <> None /\ read f <> None) ->
  always_ends_in (binit nw d0) (bstep (processEvent read locations) storeEvent (work files) nw) (fun b =>
    finished nw (base b) /\ Permutation (comp (base b)) (work files) /\
    event_tables read locations files d0 (out (base b)) /\
    (forall i, (1 <= i <= nw)%nat -> down (base b) i = [] /\ up (base b) i = [])).
Proof.
  intros read locations files d0 nw H1 H2 H3. destruct (c11_events_l read locations files d0 nw H1 H2 H3) as (d & _ & _ & E).
  exact (blocking_ends _ _ _ _ _ _ E).
Qed.
Print Assumptions c11_events_any_buffering.
Theorem c11_tracks_any_buffering : forall load locations files d0 nw, (1 <= nw)%nat ->
  (forall f, In f files -> load f <> None) ->
  exists d, serial (processTrack locations load) insertTracks d0 files = Some d /\
  always_ends_in (binit nw d0) (bstep (processTrack locations load) insertTracks files nw) (fun b =>
    finished nw (base b) /\ Permutation (comp (base b)) files /\ same_tables (out (base b)) d /\
    (forall i, (1 <= i <= nw)%nat -> down (base b) i = [] /\ up (base b) i = [])).
Proof.
  intros load locations files d0 nw H1 H2. destruct (c11_tracks_l load locations files d0 nw H1 H2) as (d & Hd & E).
  exists d. split; [exact Hd|]. exact (blocking_ends _ _ _ _ _ _ E).
Qed.
Print Assumptions c11_tracks_any_buffering.

Definition db0 : db := {| events := []; winds := []; tracks := []; hazards := []; locs := [1; 2] |}.
Definition rd (f : str) : option (Q * (nat -> Q)) := Some (1%Q, fun l => inject_Z (Z.of_nat l)).
Definition gusts : list str := [lit "gust.001-00002.nc"; lit "gust.003-00004.nc"].
(** The hypotheses are met. *)
Example c11_met : forall f, In f gusts -> event_id f <> None /\ rd f <> None.
Proof. intros f [<-|[<-|[]]]; split; vm_compute; discriminate. Qed.
Example c11_serial : exists d, processEvents rd [1; 2] gusts db0 = Some d /\
  map (fun e => (e_num e, e_id e)) (events d) = [(0, (1, 2)); (1, (3, 4))] /\ length (winds d) = 4.
Proof. eexists. split; [vm_compute; reflexivity|]. now vm_compute. Qed.

(** C65: one file in the directory without two digit groups in its name stops the load: the
    single process run raises, the parallel run never returns. *)
Theorem c65_refuted : forall read locations files f d0 nw, In f files -> event_id f = None -> (1 <= nw)%nat ->
  processEvents read locations files d0 = None /\
  always_ends_in (init nw d0) (step (processEvent read locations) storeEvent (work files) nw) (fun s =>
    pc s = MLoop /\ (term s < pn s)%nat /\ (forall i, (1 <= i <= nw)%nat -> up s i = [])).
Proof. exact c65_l. Qed.
Print Assumptions c65_refuted.
(** The file written by the multiplier step is such a file, and the file of evolving wind speeds
    is loaded as an event of its own. *)
Example c65_met : event_id (lit "local_wind.tif") = None /\
  event_id (lit "evolution.001-00002.nc") = event_id (lit "gust.001-00002.nc").
Proof. now vm_compute. Qed.

(** C66: a second load of the same files keeps the event rows and appends every wind row again. *)
Theorem c66_refuted : forall read locations files d0 d1, events d0 = [] ->
  processEvents read locations files d0 = Some d1 ->
  exists added d2, winds d1 = winds d0 ++ added /\
    length added = (length files * length locations)%nat /\
    processEvents read locations files d1 = Some d2 /\
    events d2 = events d1 /\ winds d2 = winds d1 ++ added.
Proof. exact c66_l. Qed.
Print Assumptions c66_refuted.
Example c66_met : exists d, processEvents rd [1; 2] gusts db0 = Some d /\ winds d <> [].
Proof. eexists. split; [vm_compute; reflexivity|]. now vm_compute. Qed.

(** C67: the exceedance query returns exactly the stored records of that location above the
    given speed. *)
Theorem c67_exceeding : forall d loc speed r,
  In r (locationRecordsExceeding d loc speed) <->
  In loc (locs d) /\ exists w, In w (winds d) /\ w_loc w = loc /\ (speed < w_wspd w)%Q /\
    r = (loc, w_wspd w, w_id w).
Proof. exact exceeding_l. Qed.
Print Assumptions c67_exceeding.
(** C67: the passage and speed query pairs wind and distance of one location and one event. *)
Theorem c67_passage_wind : forall d loc speed dist r,
  In r (locationPassageWindSpeed d loc speed dist) <->
  In loc (locs d) /\ exists w e t, In w (winds d) /\ In e (events d) /\ In t (tracks d) /\
    w_loc w = loc /\ t_loc t = loc /\ e_id e = w_id w /\ t_id t = w_id w /\
    (speed < w_wspd w)%Q /\ (t_dist t <= dist)%Q /\ r = (w_wspd w, w_id w, t_dist t).
Proof. exact passage_wind_l. Qed.
Print Assumptions c67_passage_wind.
(** C67 fails for the passage query: every wind speed of the event, at whatever location, is
    returned as a record of the queried location. *)
Theorem c67_passage_refuted :
  (forall d loc dist w t e, In loc (locs d) -> In t (tracks d) -> In w (winds d) -> In e (events d) ->
   t_loc t = loc -> (t_dist t < dist)%Q -> w_id w = t_id t -> e_id e = t_id t ->
   In (loc, t_id t, t_dist t, w_wspd w, e_file e) (locationPassage d loc dist)) /\
  exists d, In (1, (1, 2), 10%Q, 50%Q, lit "f") (locationPassage d 1 20%Q) /\
    forall w, In w (winds d) -> w_loc w = 1 -> ~ (w_wspd w == 50)%Q.
Proof.
  split; [exact passage_all_l|].
  exists {| events := [{| e_num := 0; e_id := (1, 2); e_file := lit "f"; e_info := 0%Q |}];
            winds := [{| w_loc := 1; w_id := (1, 2); w_wspd := 20%Q |};
                      {| w_loc := 2; w_id := (1, 2); w_wspd := 50%Q |}];
            tracks := [{| t_loc := 1; t_id := (1, 2); t_dist := 10%Q |}]; hazards := []; locs := [1; 2] |}.
  split; [vm_compute; auto|]. intros w [<-|[<-|[]]]; cbn; [discriminate|discriminate].
Qed.
Print Assumptions c67_passage_refuted.

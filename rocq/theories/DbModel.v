(** Hazard database: database/__init__.py:306-482, 549-624, 667-690 and database/queries.py:30-200.
    Tables are lists of rows in insertion order. Text columns that no query reads, the creation
    time stamps and the file attributes are one opaque value ([info]). *)
From Coq Require Import Ascii String QArith.
From Verif Require Import Base MWModel NamesModel.
Close Scope Q_scope. Close Scope string_scope. Open Scope list_scope.

Definition evid := (nat * nat)%type.
Definition evid_eqb (a b : evid) : bool := (fst a =? fst b) && (snd a =? snd b).
(** tblEvents: eventNumber (primary key), eventId, eventFile, other columns. *)
Record event_row := { e_num : nat; e_id : evid; e_file : str; e_info : Q }.
(** tblWindSpeed: locId, eventId, wspd. *)
Record wind_row := { w_loc : nat; w_id : evid; w_wspd : Q }.
(** tblTracks: locId, eventId, distClosest. *)
Record track_row := { t_loc : nat; t_id : evid; t_dist : Q }.
(** tblHazard: locId, returnPeriod, wspd. *)
Record hazard_row := { h_loc : nat; h_period : nat; h_wspd : Q }.
Record db := { events : list event_row; winds : list wind_row; tracks : list track_row;
               hazards : list hazard_row; locs : list nat }.

(** database/__init__.py:306-328 insertEvents: a row whose number exists already raises
    IntegrityError, which is logged and swallowed. *)
Definition insertEvents (d : db) (e : event_row) : db :=
  if existsb (fun x => e_num x =? e_num e) (events d) then d
  else {| events := events d ++ [e]; winds := winds d; tracks := tracks d;
          hazards := hazards d; locs := locs d |}.
(** 330-348 insertWindSpeeds: the table has no key (definitions.py:29-32). *)
Definition insertWindSpeeds (d : db) (w : list wind_row) : db :=
  {| events := events d; winds := winds d ++ w; tracks := tracks d;
     hazards := hazards d; locs := locs d |}.
(** 627-645 insertTracks; 601-602, 622-624: an empty result inserts nothing. *)
Definition insertTracks (d : db) (t : list track_row) : db :=
  {| events := events d; winds := winds d; tracks := tracks d ++ t;
     hazards := hazards d; locs := locs d |}.

Section Events.
  (** Reading one wind field file: other columns of its event row and the wind speed at each
      location; [None] when the file cannot be read (the code then raises). *)
  Variable read : str -> option (Q * (nat -> Q)).
  Variable locations : list nat.
  (** 430-482 processEvent. *)
  Definition processEvent (wf : nat * str) : option (event_row * list wind_row) :=
    let '(w, f) := wf in
    match event_id f, read f with
    | Some id, Some (info, at_loc) =>
        Some ({| e_num := w; e_id := id; e_file := f; e_info := info |},
              map (fun l => {| w_loc := l; w_id := id; w_wspd := at_loc l |}) locations)
    | _, _ => None
    end.
  (** 391-393, 425-428. *)
  Definition storeEvent (d : db) (r : event_row * list wind_row) : db :=
    insertWindSpeeds (insertEvents d (fst r)) (snd r).
  (** [enumerate(fileList)] *)
  Definition work (files : list str) : list (nat * str) := combine (seq 0 (length files)) files.
  (** 412-428 single process *)
  Definition processEvents (files : list str) (d : db) : option db :=
    serial processEvent storeEvent d (work files).

  (** 667-690 processTrack: one row per non-empty track and location. *)
  Variable load : str -> option (list (bool * evid * (nat -> Q))).   (* empty?, id, distance *)
  Definition processTrack (f : str) : option (list track_row) :=
    match load f with
    | None => None
    | Some ts => Some (flat_map (fun t => let '(empty, id, dist) := t in
          if (empty : bool) then []
          else map (fun l => {| t_loc := l; t_id := id; t_dist := dist l |}) locations) ts)
    end.
End Events.

(** queries.py:35-68 locationRecordsExceeding (rows before ORDER BY). *)
Definition qgt (a b : Q) : bool := negb (Qle_bool a b).
Definition locationRecordsExceeding (d : db) (loc : nat) (speed : Q) : list (nat * Q * evid) :=
  flat_map (fun l => flat_map (fun w =>
      if (l =? w_loc w) && qgt (w_wspd w) speed && (l =? loc) then [(l, w_wspd w, w_id w)] else [])
    (winds d)) (locs d).
(** queries.py:99-133 locationPassage: tblWindSpeed is joined on eventId only. *)
Definition locationPassage (d : db) (loc : nat) (distance : Q) : list (nat * evid * Q * Q * str) :=
  flat_map (fun l => flat_map (fun t =>
    if l =? t_loc t then flat_map (fun w => if evid_eqb (w_id w) (t_id t) then
      flat_map (fun e => if evid_eqb (e_id e) (t_id t) then
        if qgt distance (t_dist t) && (l =? loc)
        then [(l, t_id t, t_dist t, w_wspd w, e_file e)] else [] else []) (events d)
      else []) (winds d) else []) (tracks d)) (locs d).
(** queries.py:135-165 locationPassageWindSpeed: joined on location and event. *)
Definition locationPassageWindSpeed (d : db) (loc : nat) (speed distance : Q) : list (Q * evid * Q) :=
  flat_map (fun l => flat_map (fun w =>
    if l =? w_loc w then flat_map (fun e => if evid_eqb (e_id e) (w_id w) then
      flat_map (fun t => if (w_loc w =? t_loc t) && evid_eqb (w_id w) (t_id t) then
        if (l =? loc) && qgt (w_wspd w) speed && Qle_bool (t_dist t) distance
        then [(w_wspd w, w_id w, t_dist t)] else [] else []) (tracks d)
      else []) (events d) else []) (winds d)) (locs d).
(** queries.py:167-200 locationReturnPeriodEvents: the first matching tblHazard row;
    IndexError when there is none. *)
Definition locationReturnPeriodEvents (d : db) (loc period : nat) : option (list (nat * Q * evid)) :=
  match flat_map (fun l => flat_map (fun h =>
          if (l =? h_loc h) && (h_period h =? period) && (l =? loc) then [h_wspd h] else [])
          (hazards d)) (locs d) with
  | [] => None
  | level :: _ => Some (locationRecordsExceeding d loc level)
  end.

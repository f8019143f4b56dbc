(** Model of the shape files written for tracks and of the shape file
    helpers: Utilities/tracks2shp.py and Utilities/shptools.py.

    A feature of a shape file is the list of its parts (a part is a list of
    vertices) together with its attribute record.  The shape file library is
    not modelled: the lists below are what is handed to [sf.point] /
    [sf.line] / [w.poly] and [sf.record] / [w.record], in that order.
    Rounding of attributes to the declared field widths is not modelled. *)
From Coq Require Import List QArith ZArith Bool String.
From Verif Require Import Base CellModel.
Import ListNotations.
Local Open Scope nat_scope.

(** A position: longitude and latitude. *)
Definition pos := (Q * Q)%type.

Section Tracks.
  (** The attribute record of an observation (track.data[n]). *)
  Context {R : Type}.

  (** One observation of a track: its position and its record. *)
  Record obs := mkObs { o_lon : Q; o_lat : Q; o_rec : R }.

  Definition at_pos (o : obs) : pos := (o_lon o, o_lat o).

  (** A point feature and a line feature. *)
  Definition pointf := (pos * R)%type.
  Definition linef (A : Type) := (list (list pos) * A)%type.

  (** tracks2point, Utilities/tracks2shp.py:157-194 (the same loop in
      Utilities/shptools.py:393-416): one point and one record for each
      observation of each track. *)
  Definition tracks2point (tracks : list (list obs)) : list pointf :=
    flat_map (fun tr => map (fun o => (at_pos o, o_rec o)) tr) tracks.

  (** The loop [for n in range(len(track.data) - 1)] followed by the last
      point, Utilities/tracks2shp.py:283-317.  [o] is observation n and
      [rest] the observations after it. *)
  Fixpoint segmentsFrom (o : obs) (rest : list obs) : list (linef R) :=
    match rest with
    | [] => [ ([[at_pos o; at_pos o]], o_rec o) ]
    | o' :: rest' =>
        (if qlt (o_lon o' - o_lon o) (- inject_Z 180)
         then ([[at_pos o; at_pos o]], o_rec o)
         else ([[at_pos o; at_pos o']], o_rec o))
        :: segmentsFrom o' rest'
    end.

  (** tracks2line with dissolve=False for one track,
      Utilities/tracks2shp.py:272-317.  A track with one observation gives
      a line from the observation to itself (lines 273-281); an empty track
      leaves [n] unbound at line 313 and raises (None). *)
  Definition segments (tr : list obs) : option (list (linef R)) :=
    match tr with
    | [] => None
    | o :: rest => Some (segmentsFrom o rest)
    end.

  (** [np.diff(track.Longitude)], Utilities/tracks2shp.py:230. *)
  Fixpoint diffs (l : list Q) : list Q :=
    match l with
    | a :: ((b :: _) as l') => (b - a)%Q :: diffs l'
    | _ => []
    end.

  (** [np.argmin]: the index of the first smallest element (0 for the empty
      list, on which it is not called). *)
  Fixpoint argminFrom (best : Q) (ib i : nat) (l : list Q) : nat :=
    match l with
    | [] => ib
    | x :: l' => if qlt x best then argminFrom x i (S i) l'
                 else argminFrom best ib (S i) l'
    end.
  Definition argmin (l : list Q) : nat :=
    match l with [] => 0 | x :: l' => argminFrom x 0 1 l' end.

  (** The parts of the dissolved line of one track,
      Utilities/tracks2shp.py:228-249: split where the longitude drops by
      more than 180 degrees. *)
  Definition dissolved (tr : list obs) : list (list pos) :=
    let d := diffs (map o_lon tr) in
    if (1 <? List.length tr)%nat then
      let idx := argmin d in
      if qlt (nth idx d 0%Q) (- inject_Z 180)
      then [map at_pos (firstn idx tr); map at_pos (skipn (S idx) tr)]
      else [map at_pos tr]
    else [map at_pos tr].

  (** The attributes of a dissolved line, Utilities/tracks2shp.py:251-270.
      [elapsed], [pcentre], [wind] and [start] read the columns TimeElapsed,
      CentralPressure, WindSpeed and the identifying and date columns
      (CycloneNumber, Year .. Minute) of a record.  The minimum and maximum
      are those stored by Track.__init__ (Utilities/track.py:76-90).
      None: an IndexError or ValueError for an empty track. *)
  Definition qmax (a b : Q) : Q := if qlt a b then b else a.
  Definition qmin (a b : Q) : Q := if qlt b a then b else a.
  Definition eventRecord {D : Type} (start : R -> D)
      (elapsed pcentre wind : R -> Q) (tr : list obs)
      : option (D * (Q * Q * Q)) :=
    match map o_rec tr with
    | [] => None
    | r :: rs =>
        Some (start r,
              (fold_left qmax (map elapsed rs) (elapsed r),
               fold_left qmin (map pcentre rs) (pcentre r),
               fold_left qmax (map wind rs) (wind r)))
    end.

  (** tracks2line for a list of tracks: every track in turn
      (Utilities/tracks2shp.py:224-317); one raising track stops the run. *)
  Fixpoint sequence {A : Type} (l : list (option A)) : option (list A) :=
    match l with
    | [] => Some []
    | None :: _ => None
    | Some a :: l' => option_map (cons a) (sequence l')
    end.

  Definition tracks2segments (tracks : list (list obs)) : option (list (linef R)) :=
    option_map (@List.concat _) (sequence (map segments tracks)).

  Definition tracks2lines {D : Type} (start : R -> D)
      (elapsed pcentre wind : R -> Q) (tracks : list (list obs))
      : option (list (linef (D * (Q * Q * Q)))) :=
    sequence (map (fun tr => option_map (fun r => (dissolved tr, r))
                                        (eventRecord start elapsed pcentre wind tr))
                  tracks).
End Tracks.

Arguments obs : clear implicits.
Arguments linef : clear implicits.

(** add_category, Utilities/tracks2shp.py:134-155: the category of a central
    pressure (hPa).  None stands for NaN, for which every comparison fails. *)
Definition category (p : option Q) : nat :=
  match p with
  | None => 0
  | Some p =>
      if qlt p (inject_Z 930) then 5
      else if qlt p (inject_Z 955) then 4
      else if qlt p (inject_Z 970) then 3
      else if qlt p (inject_Z 985) then 2
      else if qlt p (inject_Z 999) then 1
      else 0
  end.

(** A structured array: its field names with one column each.  Only the
    columns are modelled, not their types. *)
Definition table (V : Type) := list (string * list V).

(** recdropfields, Utilities/tracks2shp.py:96-120. *)
Definition recdropfields {V} (names : list string) (t : table V) : table V :=
  filter (fun c => negb (existsb (String.eqb (fst c)) names)) t.

(** add_field, Utilities/tracks2shp.py:122-132, followed by setting the new
    column (add_category): the columns of [a] and then the new one. *)
Definition add_field {V} (name : string) (col : list V) (t : table V) : table V :=
  t ++ [(name, col)].

Definition column {V} (name : string) (t : table V) : option (list V) :=
  option_map snd (find (fun c => String.eqb name (fst c)) t).

(** A shape as read by the shape file library: its points and the index of
    the first point of each part ([s.points], [s.parts]). *)
Record shape := mkShape { s_points : list pos; s_parts : list nat }.

(** Python's [l[a:b]] for 0 <= a and 0 <= b. *)
Definition pyslice {A} (a b : nat) (l : list A) : list A :=
  firstn (b - a) (skipn a l).

(** The loop over [s.parts[1:]], Utilities/shptools.py:145-152 (and
    :228-235): each new part ends at [p - 1] (exclusive); after the loop
    the rest up to the last point (exclusive) is added.  A part index p is
    at least 1 because an earlier part starts at 0. *)
Fixpoint rebuild (points : list pos) (start : nat) (parts : list nat) : list (list pos) :=
  match parts with
  | [] => [pyslice start (List.length points - 1) points]
  | p :: parts' => pyslice start (p - 1) points :: rebuild points p parts'
  end.

(** The parts handed to [w.poly], Utilities/shptools.py:144-154, :227-237. *)
Definition outParts (s : shape) : list (list pos) :=
  if (1 <? List.length (s_parts s))%nat
  then rebuild (s_points s) 0 (tl (s_parts s))
  else [s_points s].

(** shpWriteShapeFile, Utilities/shptools.py:195-243: shapes and records are
    paired by [zip]. *)
Definition shpWriteShapeFile {A} (shapes : list shape) (records : list A)
  : list (list (list pos) * A) :=
  combine (map outParts shapes) records.

(** parseData, Utilities/shptools.py:72-105: a field description and a
    "record" for each field; the record is the one-element list holding the
    whole data column. *)
Record field {V} := mkField { f_name : string; f_type : nat; f_length : nat;
                              f_prec : nat; f_data : list V }.
Arguments field : clear implicits.

Definition parseData {V} (data : list (field V))
  : list (string * nat) * list (list (list V)) :=
  (map (fun f => (f_name f,
                  match f_type f with 2 => f_prec f | _ => 0 end)) data,
   map (fun f => [f_data f]) data).

(** shpCreateFile, Utilities/shptools.py:108-161: the records returned by
    parseData are paired with the shapes. *)
Definition shpCreateFile {V} (shapes : list shape) (data : list (field V)) :=
  combine (map outParts shapes) (snd (parseData data)).

(** shpSaveTrackFile, Utilities/shptools.py:164-192: which of the writers is
    run for a format (None: a message is logged and nothing is written). *)
Inductive writer := wPoint | wLine (dissolve : bool).
Definition shpSaveTrackFile (fmt : string) : option writer :=
  if String.eqb fmt "points" then Some wPoint
  else if String.eqb fmt "lines" then Some (wLine true)
  else if String.eqb fmt "segments" then Some (wLine false)
  else None.
(** The default value of [fmt], Utilities/shptools.py:164, which is also the
    name its documentation uses. *)
Definition defaultFmt : string := "point".

(** shpGetVertices, Utilities/shptools.py:246-305: a dictionary assignment
    per shape in file order.  A Python dictionary keeps the position of the
    first assignment of a key and the value of the last one. *)
Fixpoint dset {V} (k : nat) (v : V) (d : list (nat * V)) : list (nat * V) :=
  match d with
  | [] => [(k, v)]
  | (k', v') :: d' => if (k =? k')%nat then (k, v) :: d' else (k', v') :: dset k v d'
  end.
Definition shpGetVertices (keyOf : option (list nat)) (shapes : list shape)
  : list (nat * list pos) :=
  let keys := match keyOf with
              | Some ks => ks
              | None => seq 0 (List.length shapes)
              end in
  fold_left (fun d ks => dset (fst ks) (s_points (snd ks)) d)
            (combine keys shapes) [].

(** shpGetField, Utilities/shptools.py:308-362: the value of the named field
    of every record (None: the field is missing and ValueError is raised).
    A record is the list of its values in the order of the fields. *)
Fixpoint indexOf (name : string) (names : list string) : option nat :=
  match names with
  | [] => None
  | n :: ns => if String.eqb name n then Some 0 else option_map S (indexOf name ns)
  end.
Definition shpGetField {V} (d : V) (names : list string) (name : string)
    (records : list (list V)) : option (list V) :=
  option_map (fun i => map (fun r => nth i r d) records) (indexOf name names).

(** Files that carry tracks and cell statistics between the steps of a run: Utilities/track.py:209-335
    (ncReadTrackData, ncSaveTracks), the requirement of Evaluate/interpolateTracks.py:104-200 on the fields
    of a track, and StatInterface/generateStats.py:149-245 (calculateStatistics, plotStatistics), 384-483 (load, save).
    A netCDF file is the value last written to it. Numbers are rationals; the storage as 32 bit floats and the
    masking of fill values are not modelled. Dates are whole seconds of the calendar of the file. *)
From Coq Require Import List Arith ZArith Bool QArith Qround String.
From Verif Require Import Base TileModel CellModel.
Import ListNotations.
Close Scope Q_scope. Open Scope Z_scope.

(** ** Track files *)
(** An entry of the field [Datetime], of type object: a date or, after saving, a number *)
Inductive stamp := Date (s : Z) | Num (q : Q).
(** [data.dtype.names] without [Datetime], the records and [trackId] *)
Record trk := { names : list string; rows : list (stamp * list Q); tid : option (Z * Z) }.
(** '<unit> since <reference>': seconds in a unit and seconds from 1900-01-01 to the reference *)
Record tunits := { perUnit : Z; refDate : Z }.
Definition hours1900 : tunits := {| perUnit := 3600; refDate := 0 |}.
(** date2num; [None]: an exception, the value is not a date *)
Definition date2num (u : tunits) (s : stamp) : option Q :=
  match s with Date d => Some (inject_Z (d - refDate u) / inject_Z (perUnit u))%Q | Num _ => None end.
(** num2date and the conversion to whole seconds, track.py:226, 257 *)
Definition num2date (u : tunits) (q : Q) : Z := refDate u + Qfloor (q * inject_Z (perUnit u))%Q.

(** A group of the file: its number, the fields, the records with [Datetime] as number, the time units, [trackId] *)
Record group := { g_no : nat; g_names : list string; g_rows : list (Q * list Q); g_units : tunits; g_tid : option (Z * Z) }.
Fixpoint allSomeQ {A} (l : list (option A)) : option (list A) :=
  match l with [] => Some [] | None :: _ => None | Some a :: r => match allSomeQ r with Some r' => Some (a :: r') | None => None end end.

(** track.py:299-330, the loop over the tracks: groups written, tracks as they are afterwards, success.
    [cols]: the fields of the first track, to which the records of each track are cast by position;
    a different number of fields raises. *)
Fixpoint saveLoop (cols : list string) (u : tunits) (n : nat) (ts : list trk) : list group * list trk * bool :=
  match ts with
  | [] => ([], [], true)
  | t :: r =>
      match rows t with
      | [] => let '(g, r', ok) := saveLoop cols u (S n) r in (g, t :: r', ok)
      | _ =>
          match allSomeQ (map (fun x => date2num u (fst x)) (rows t)) with
          | None => ([], t :: r, false)
          | Some nums =>
              let t' := {| names := names t; rows := map (fun '(q, x) => (Num q, snd x)) (combine nums (rows t)); tid := tid t |} in
              if negb (Nat.eqb (List.length (names t)) (List.length cols)) then ([], t' :: r, false)
              else let g := {| g_no := n; g_names := cols; g_rows := map (fun '(q, x) => (q, snd x)) (combine nums (rows t));
                               g_units := hours1900; g_tid := tid t |} in
                   let '(gs, r', ok) := saveLoop cols u (S n) r in (g :: gs, t' :: r', ok)
          end
      end
  end.
(** ncSaveTracks, track.py:267-335: the file, the tracks and success afterwards *)
Definition saveTracks (file : option (list group)) (ts : list trk) (u : tunits) : option (list group) * list trk * bool :=
  match ts with
  | [] => (file, [], true)
  | t :: _ => let '(gs, ts', ok) := saveLoop (names t) u 0 ts in (Some gs, ts', ok)
  end.

(** TCRM_COLS without Datetime, track.py:158-160 *)
Open Scope string_scope.
Definition tcrmCols : list string :=
  ["CycloneNumber"; "TimeElapsed"; "Longitude"; "Latitude"; "Speed"; "Bearing"; "CentralPressure"; "EnvPressure"; "rMax"].
Close Scope string_scope.
Fixpoint field (n : string) (ns : list string) (vs : list Q) : option Q :=
  match ns, vs with m :: ns', v :: vs' => if String.eqb n m then Some v else field n ns' vs' | _, _ => None end.
(** track.py:232-263; fields missing from the file stay 0 *)
Definition readGroup (g : group) : trk :=
  {| names := tcrmCols;
     rows := map (fun '(q, vs) => (Date (num2date (g_units g) q),
                 map (fun n => match field n (g_names g) vs with Some v => v | None => 0%Q end) tcrmCols)) (g_rows g);
     tid := g_tid g |}.
(** loadTracks, track.py:402-420; [None]: IOError *)
Definition loadTracks (file : option (list group)) : option (list trk) :=
  match file with None => None | Some gs => Some (map readGroup gs) end.

(** [track.WindSpeed] as interpolateTracks.py:130-200 reads it for a track of two or more records with a
    valid central pressure; [false]: an exception *)
Definition hasField (n : string) (t : trk) : bool := existsb (String.eqb n) (names t).
Definition maxsizeQ : Q := inject_Z 9223372036854775807.
Definition validPressure (t : trk) : bool :=
  existsb (fun r => match field "CentralPressure" (names t) (snd r) with Some v => qlt v maxsizeQ | None => false end) (rows t).
(** parseTracks, interpolateTracks.py:312-321, as far as the fields are concerned *)
Definition canInterpolate (t : trk) : bool :=
  Nat.eqb (List.length (rows t)) 1 || negb (validPressure t) || hasField "WindSpeed" t.

(** ** Cell statistics *)
(** [a.reshape((ny, nx))]; [None]: ValueError *)
Fixpoint chunks {A} (nx : nat) (ny : nat) (l : list A) : list (list A) :=
  match ny with O => [] | S k => firstn nx l :: chunks nx k (skipn nx l) end.
Definition reshape {A} (ny nx : nat) (l : list A) : option (list (list A)) :=
  if Nat.eqb (ny * nx) (List.length l) then Some (chunks nx ny l) else None.
(** A variable with its coordinates *)
Record ncvar := { v_lat : list Z; v_lon : list Z; v_data : list (list Q) }.
(** generateStats.py:418-421: [np.arange(xMin, xMax, x)], [np.arange(yMax, yMin, -y)] *)
Definition lonAxis (g : glimit) (s : gspace) : list Z := map (fun j => xMin g + Z.of_nat j * gx s) (seq 0 (Z.to_nat (lonCells g s))).
Definition latAxis (g : glimit) (s : gspace) : list Z := map (fun i => yMax g - Z.of_nat i * gy s) (seq 0 (Z.to_nat (latCells g s))).
(** generateStats.py:405-483 for one variable *)
Definition saveStat (g : glimit) (s : gspace) (vals : list Q) : option ncvar :=
  match reshape (List.length (latAxis g s)) (List.length (lonAxis g s)) vals with
  | Some d => Some {| v_lat := latAxis g s; v_lon := lonAxis g s; v_data := d |}
  | None => None
  end.
(** generateStats.py:384-399 for one variable *)
Definition loadStat (v : ncvar) : list Q := List.concat (v_data v).
(** generateStats.py:149-161 for one statistic: [numpy.zeros(maxCell + 1)] filled by the loop over the cells *)
Fixpoint setAt {A} (l : list A) (i : nat) (a : A) : list A :=
  match l, i with [], _ => [] | _ :: r, O => a :: r | b :: r, S k => b :: setAt r k a end.
Definition calculateAll (g : glimit) (s : gspace) (stat : Z -> Q) : list Q :=
  let n := Z.to_nat (maxCellNum g s + 1) in
  fold_left (fun l i => setAt l i (stat (Z.of_nat i))) (seq 0 n) (repeat 0%Q n).
(** Assignment to the column [j] of an array of [n] columns, counted from the end when negative; [None]: IndexError *)
Definition setCol {A} (l : list A) (j : Z) (a : A) : option (list A) :=
  let n := Z.of_nat (List.length l) in
  if (j <? - n) || (n <=? j) then None else Some (setAt l (Z.to_nat (if j <? 0 then j + n else j)) a).
(** generateStats.py:176-187: one column for each cell into an uninitialised array ([None]) of [maxCell] columns *)
Fixpoint plotLoop (stat : Z -> Q) (cells : list Z) (l : list (option Q)) : option (list (option Q)) :=
  match cells with
  | [] => Some l
  | c :: r => match setCol l (c - 1) (Some (stat c)) with Some l' => plotLoop stat r l' | None => None end
  end.
Definition plotColumns (g : glimit) (s : gspace) (stat : Z -> Q) : option (list (option Q)) :=
  plotLoop stat (map Z.of_nat (seq 0 (Z.to_nat (maxCellNum g s + 1)))) (repeat None (Z.to_nat (maxCellNum g s))).

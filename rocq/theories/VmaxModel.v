(** Reading tables of observed cyclones, second part (Utilities/loadData.py, Utilities/columns.py): estimated
    maximum winds, extremes of a track, ages, days and columns.  Winds are over the real numbers; 32 bit numbers are
    modelled for the days only. *)
From Coq Require Import List Arith ZArith QArith Qround Bool String Reals.
From Verif Require Import CircleModel LoadModel GenModel.
Import ListNotations.
Close Scope Q_scope.
Local Open Scope R_scope.

(** * maxWindSpeed, loadData.py:205-283 *)
(** A row as it reaches the function: flag of a new cyclone, hours since the previous row, kilometres from the
    previous position (of maputils.latLon2Azi), latitude, central and environmental pressure in hPa; [None]: nan. *)
Record obs := { o_new : bool; o_dt : R; o_dist : R; o_lat : R; o_p : R; o_env : option R }.

(** loadData.py:247-250 with getSpeedBearing, 175-202, and metutils.convert "kmh" to "mps" (metutils.py:398-401):
    speeds that are missing (sys.maxsize) exceed 10e+3 and become 0.  Division by zero gives an infinity or nan. *)
Definition stormSpeed (o : obs) : R :=
  if o_new o then 0
  else if Req_EM_T (o_dt o) 0 then 0
  else let s := o_dist o / o_dt o in
       if rlt s 0 || rlt 200 s then 0 else s * (2777778 / 10000000).

(** loadData.py:255-262; [prev]: the pressure of the previous row (the row itself for the first) *)
Definition fall (prev : R) (o : obs) : R :=
  if o_new o then 0
  else if Req_EM_T (o_dt o) 0 then 0
  else let d := (o_p o - prev) / o_dt o in if rlt 5 (Rabs d) then 0 else d.

(** numpy.power of a non-negative number; [None]: infinite *)
Definition npPower (s c : R) : option R :=
  if Req_EM_T s 0 then
    if rlt 0 c then Some 0 else if Req_EM_T c 0 then Some 1 else None
  else Some (Rpower s c).

(** loadData.py:267-271 *)
Definition density (prmw lat : R) : R :=
  let tsurf := 28 - 3 * (Rabs lat - 10) / 20 in
  let qmix := 9 / 10 * (3802 / 1000 / prmw) * exp (1767 / 100 * tsurf / (2435 / 10 + tsurf)) in
  let tvs := (tsurf + 27315 / 100) * (1 + 81 / 100 * qmix) in
  prmw * 100 / (tvs * (28704 / 100)).

(** loadData.py:264-282; [gf]: gust factor.  Values that are nan or infinite become 0. *)
Definition windOf (gf prev : R) (o : obs) : R :=
  match o_env o with
  | None => 0
  | Some env =>
      let p := o_p o in
      let deltap := env - p in
      let prmw := p + deltap / (37 / 10) in
      let chi := 6 / 10 * (1 - deltap / 215) in
      match npPower (stormSpeed o) chi with
      | None => 0
      | Some w =>
          let beta := - (44 / 1000000) * deltap ^ 2 + 1 / 100 * deltap + 3 / 100 * fall prev o
                      - 14 / 1000 * Rabs (o_lat o) + 15 / 100 * w + 1 in
          if rlt p 100000000 && rlt 0 p then
            if Req_EM_T prmw 0 then 0
            else
              let a := deltap * 100 * beta / (density prmw (o_lat o) * exp 1) in
              if rlt a 0 then 0 else gf * sqrt a
          else 0
      end
  end.
Fixpoint windsFrom (gf prev : R) (l : list obs) : list R :=
  match l with [] => [] | o :: r => windOf gf prev o :: windsFrom gf (o_p o) r end.
Definition maxWindSpeed (gf : R) (l : list obs) : list R :=
  match l with [] => [] | o :: _ => windsFrom gf (o_p o) l end.

(** * getMinPressure, getMaxWind, loadData.py:755-791, over Q; [m]: the missing value *)
Local Open Scope Q_scope.
Definition fold1 (f : Q -> Q -> Q) (m : Q) (l : list Q) : Q :=
  match filter (fun x => negb (Qeq_bool x m)) l with [] => m | x :: r => fold_left f r x end.
Definition getMinPressure (m : Q) (p : list Q) : Q := fold1 pmin m p.
Definition getMaxWind (m : Q) (w : list Q) : Q := fold1 pmax m w.

(** * parseAge, loadData.py:468-501: minutes since 2000-01-01; microseconds are not modelled, seconds are dropped *)
Definition ageMinutes (age : Q) : Z := Qfloor (age * 60).
Definition parseAge (ages : list Q) : list Z := map ageMinutes ages.

(** * getTime, loadData.py:556-576: ordinal and hour of a date as a 32 bit number, for ordinals from 524288 (year
    1436) to 1048575 (year 2871): multiples of a sixteenth of a day; the minute is not used. *)
Definition getTime (ordinal hour minute : Z) : Q :=
  inject_Z (rint (16 * (inject_Z ordinal + inject_Z hour / 24))) / 16.

(** * parseDates, loadData.py:428-460: errors of a missing column *)
Inductive table := Dictionary | Structured.
Inductive lookupError := KeyError | ValueError.
(** Python's dictionaries raise KeyError, numpy's structured arrays ValueError ("no field of name") *)
Definition missing (t : table) : lookupError := match t with Dictionary => KeyError | Structured => ValueError end.
(** [Some e]: the exception that leaves the function *)
Definition parseDatesError (t : table) (date month day hour : bool) : option lookupError :=
  if date then None
  else match missing t with
       | KeyError => if month && day && hour then None else Some (missing t)
       | e => Some e
       end.

(** * colReadCSV, columns.py:32-53 *)
Section Columns.
  Variable A : Type.
  Variable blank : A.
  Definition usecols (cols : list string) : list nat :=
    map fst (filter (fun ic => negb (String.eqb (snd ic) "skip")) (combine (seq 0 (List.length cols)) cols)).
  Definition names (cols : list string) : list string := filter (fun c => negb (String.eqb c "skip")) cols.
  (** a row of the result: field names with the values of the columns read *)
  Definition rowOf (cols : list string) (fields : list A) : list (string * A) :=
    combine (names cols) (map (fun i => nth i fields blank) (usecols cols)).
  (** numpy.genfromtxt squeezes its result: one line gives a scalar record *)
  Inductive loaded := Scalar (r : list (string * A)) | Rows (l : list (list (string * A))).
  Definition colReadCSV (cols : list string) (heading : nat) (lines : list (list A)) : loaded :=
    match map (rowOf cols) (skipn heading lines) with [r] => Scalar r | l => Rows l end.
  (** loadData.py:861-863: numpy.diff of the longitudes; [None]: ValueError for a scalar *)
  Definition diffable (t : loaded) : option nat :=
    match t with Scalar _ => None | Rows l => Some (List.length l - 1)%nat end.
End Columns.

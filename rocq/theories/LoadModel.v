(** Loading of best track data: Utilities/track.py:380-400 (readMultipleTrackData);
    Utilities/loadData.py:191-202 (getSpeedBearing masks), 286-365 (getInitialPositions), 426-470 (parseDates,
    missing year), 505-523 (getTimeDelta), 525-553 (getTimeElapsed), 726-753 (filterPressure), 794-966
    (loadTrackFile); DataProcess/DataProcess.py:117-158 (extractTracks), 200-345 (processData), 420-760 (derived
    quantities); DataProcess/CalcTrackDomain.py:51-98; DataProcess/CalcFrequency.py:59-102.
    Simplifications: numbers are exact rationals; a column of the table is the list of its values; serial
    numbers (strings) are only compared for equality and are integers here; a date is the number of minutes
    since some epoch; files written and read back between modules are identity. *)
From Coq Require Import QArith Qabs Qround.
From Verif Require Import Base CellModel.
From Verif Require GenModel.
Close Scope Q_scope. Open Scope list_scope. Open Scope nat_scope.

(** sys.maxsize, the default missing value. *)
Definition maxsize : Q := 9223372036854775807 # 1.

(** * Start-of-track flags *)

(** A column of the input table: no such field, not convertible to integers, or its values. *)
Inductive column := Absent | Bad | Col (l : list Z).
Record cols := { c_index : column; c_serial : column; c_num : column; c_season : column }.

(** loadData.py:321-327, 334-341, 351-355: ones, then zero where the key equals that of the previous record. *)
Fixpoint flagsFrom {A} (eqb : A -> A -> bool) (prev : A) (l : list A) : list Z :=
  match l with
  | [] => []
  | a :: r => (if eqb a prev then 0 else 1)%Z :: flagsFrom eqb a r
  end.
Definition runFlags {A} (eqb : A -> A -> bool) (l : list A) : list Z :=
  match l with [] => [] | a :: r => 1%Z :: flagsFrom eqb a r end.
Definition pairEqb (a b : Z * Z) : bool := ((fst a =? fst b) && (snd a =? snd b))%Z.

(** loadData.py:310-365 (getInitialPositions); [None] is the final KeyError. *)
Definition getInitialPositions (c : cols) : option (list Z) :=
  match c_index c with
  | Col l => Some l
  | _ =>
    match c_serial c with
    | Col l => Some (runFlags Z.eqb l)
    | _ =>
      match c_num c, c_season c with
      | Col n, Col s => Some (runFlags pairEqb (combine s n))
      | Col n, _ => Some (runFlags Z.eqb n)
      | _, _ => None
      end
    end
  end.

(** loadData.py:871-884 with limits 10 and 5, DataProcess.py:247-256 with limits 15 and 5: the flag of the
    record after a jump is set. Positions are (longitude, latitude). *)
Definition jump (dx dy : Q) (p q : Q * Q) : bool :=
  qlt dx (fst q - fst p)%Q || qlt dy (snd q - snd p)%Q.
Fixpoint splitFrom (dx dy : Q) (p : Q * Q) (fl : list Z) (pts : list (Q * Q)) : list Z :=
  match fl, pts with
  | f :: fl', q :: pts' => (if jump dx dy p q then 1%Z else f) :: splitFrom dx dy q fl' pts'
  | _, _ => []
  end.
Definition splitJumps (dx dy : Q) (fl : list Z) (pts : list (Q * Q)) : list Z :=
  match fl, pts with
  | f :: fl', p :: pts' => f :: splitFrom dx dy p fl' pts'
  | _, _ => []
  end.

(** * Grouping records into tracks *)

(** np.cumsum *)
Fixpoint cums (acc : Z) (l : list Z) : list Z :=
  match l with [] => [] | a :: r => (acc + a)%Z :: cums (acc + a) r end.
(** np.max of a non-empty list *)
Definition zmaxl (a : Z) (l : list Z) : Z := fold_left Z.max l a.
(** data[ids == i] *)
Definition select {R} (ids : list Z) (recs : list R) (i : Z) : list R :=
  map snd (filter (fun p => (fst p =? i)%Z) (combine ids recs)).
(** for i in range(1, np.max(ids) + 1): data[ids == i] *)
Definition groups {R} (ids : list Z) (recs : list R) : option (list (list R)) :=
  match ids with
  | [] => None
  | a :: r => Some (map (fun k => select ids recs (Z.of_nat k)) (seq 1 (Z.to_nat (zmaxl a r))))
  end.
(** track.py:390-400 (readMultipleTrackData) applied to the table read. *)
Definition readMultiple {R} (ids : list Z) (recs : list R) : list (list R) :=
  match groups ids recs with None => [[]] | Some g => g end.
(** loadData.py:937-964: TCID = cumsum(indicator); one track for each number; ValueError for no records. *)
Definition tracksOf {R} (fl : list Z) (recs : list R) : option (list (list R)) := groups (cums 0 fl) recs.

(** * Times *)

(** loadData.py:520-523 (getTimeDelta), minutes to hours rounded half to even. *)
Fixpoint stepsFrom (d0 : Z) (l : list Z) : list Q :=
  match l with
  | [] => []
  | d :: r => inject_Z (GenModel.rint (inject_Z (d - d0) / 60)%Q) :: stepsFrom d r
  end.
Definition getTimeDelta (dates : list Z) : list Q :=
  match dates with [] => [0%Q] | d :: r => 0%Q :: stepsFrom d r end.
(** loadData.py:541-553 (getTimeElapsed); [None]: [start] is unbound. *)
Fixpoint elapsedFrom (start : option Z) (fl : list Z) (dates : list Z) : option (list Q) :=
  match fl, dates with
  | f :: fl', d :: ds =>
      if (f =? 1)%Z then option_map (cons 0%Q) (elapsedFrom (Some d) fl' ds)
      else match start with
           | None => None
           | Some s => option_map (cons (inject_Z (d - s) / 60)%Q) (elapsedFrom start fl' ds)
           end
  | _, _ => Some []
  end.
Definition getTimeElapsed (fl dates : list Z) : option (list Q) := elapsedFrom None fl dates.

(** loadData.py:446-456: years made up for tables without them; [None]: fill_year is unbound. *)
Fixpoint fillYears (fy : option Z) (l : list (Z * Z)) : option (list Z) :=
  match l with
  | [] => Some []
  | (f, m) :: r =>
      let fy := if (0 <? f)%Z then Some 2000%Z else fy in
      let fy := if (m =? 1)%Z then Some 2001%Z else fy in
      match fy with None => None | Some y => option_map (cons y) (fillYears fy r) end
  end.
(** The check of the date made by datetime(y, m, d, ...). *)
Definition leap (y : Z) : bool := (((y mod 4 =? 0) && negb (y mod 100 =? 0)) || (y mod 400 =? 0))%Z.
Definition monthLength (y m : Z) : Z :=
  if (m =? 2)%Z then (if leap y then 29 else 28)%Z
  else if ((m =? 4) || (m =? 6) || (m =? 9) || (m =? 11))%Z then 30%Z else 31%Z.
Definition validDate (y m d : Z) : bool := ((1 <=? m) && (m <=? 12) && (1 <=? d) && (d <=? monthLength y m))%Z.

(** * Pressure filter *)

(** loadData.py:743-753; [k] is the factor of the conversion to hPa. *)
Definition filterPressure (k miss : Q) (l : list Q) : list Q :=
  map (fun p => let c := if Qeq_bool p miss then miss else (p * k)%Q in
                if qlt c 600 || qlt 1100 c then miss else c) l.

(** loadData.py:843-849, 871-884, 937-964: a track is the list of its records with their elapsed times. *)
Definition loadTrackFile {R} (c : cols) (dates : list Z) (pts : list (Q * Q)) (recs : list R)
  : option (list (list (R * Q))) :=
  match getInitialPositions c with
  | None => None
  | Some fl =>
    match getTimeElapsed fl dates with
    | None => None
    | Some el => tracksOf (splitJumps 10 5 fl pts) (combine recs el)
    end
  end.

(** * Derived quantities (DataProcess) *)

Fixpoint map2 {A B C} (f : A -> B -> C) (l : list A) (m : list B) : list C :=
  match l, m with a :: l', b :: m' => f a b :: map2 f l' m' | _, _ => [] end.
(** np.diff after the first element [junk] of np.empty *)
Fixpoint diffsFrom (p : Q) (l : list Q) : list Q :=
  match l with [] => [] | a :: r => (a - p)%Q :: diffsFrom a r end.
Definition changes (junk : Q) (l : list Q) : list Q :=
  match l with [] => [] | a :: r => junk :: diffsFrom a r end.
(** x / dt in numpy: [None] is an infinity or not-a-number. *)
Definition rate (x dt : Q) : option Q := if Qeq_bool dt 0 then None else Some (x / dt)%Q.
(** np.putmask(x, mask, sys.maxsize) *)
Definition mask (b : bool) (x : option Q) : option Q := if b then Some maxsize else x.
Definition nz (f : Z) : bool := negb (f =? 0)%Z.
(** The list shifted by one: indicator[:-1] against rate[1:]; the first element is not masked. *)
Definition shifted (fl : list Z) : list Z := match fl with [] => [] | _ => 0%Z :: removelast fl end.
(** np.putmask(x, (x >= maxsize) | (x <= -maxsize), maxsize); np.putmask(x, isnan(x), maxsize) *)
Definition settle (x : option Q) : Q :=
  match x with
  | None => maxsize
  | Some r => if Qle_bool maxsize r || Qle_bool r (- maxsize) then maxsize else r
  end.

(** DataProcess.py:433-434: bear = maxsize at the first record of each track (in place). *)
Definition maskedBearings (fl : list Z) (bear : list Q) : list Q :=
  map2 (fun f b => if nz f then maxsize else b) fl bear.
(** DataProcess.py:619-635 (_bearingRate) *)
Definition wrap (c : Q) : Q := if qlt 180 c then (c - 360)%Q else if qlt c (-180) then (c + 360)%Q else c.
Definition bearingRate (junk : Q) (bear dt : list Q) (fl : list Z) : list Q :=
  let ch := match bear with [] => [] | b :: r => junk :: map wrap (diffsFrom b r) end in
  map settle (map2 (fun f x => mask (nz f) x) (shifted fl)
                (map2 (fun f x => mask (nz f) x) fl (map2 rate ch dt))).
(** DataProcess.py:482-488 (_speed) *)
Definition speeds (dist dt : list Q) (fl : list Z) : list Q :=
  map2 (fun f x => match x with
                   | None => maxsize
                   | Some v => if qlt v 0 || qlt 200 v || nz f then maxsize else v
                   end) fl (map2 rate dist dt).
(** DataProcess.py:577-593 (_pressureRate): masks for starts, missing pressures, nan, |rate| > 10. *)
Definition pressureRate (junk : Q) (pressure dt : list Q) (fl : list Z) : list Q :=
  map2 (fun p x => match x with
                   | None => maxsize
                   | Some r => if Qle_bool maxsize p || qlt 10 (Qabs r) then maxsize else r
                   end) pressure
    (map2 (fun f x => mask (nz f) x) fl (map2 rate (changes junk pressure) dt)).
(** DataProcess.py:771-790 (_rmaxRate): masks for starts, missing radii, infinities, nan. *)
Definition rmaxRate (junk : Q) (rmax dt : list Q) (fl : list Z) : list Q :=
  map settle
    (map2 (fun p x => mask (Qle_bool maxsize p) x) rmax
       (map2 (fun f x => mask (nz f) x) fl (map2 rate (changes junk rmax) dt))).

(** numpy compress *)
Definition compress {R} (m : list bool) (l : list R) : list R := map snd (filter fst (combine m l)).
(** DataProcess.py:318-321: initIndex *)
Fixpoint initIndex (fl : list Z) : list bool :=
  match fl with
  | [] => []
  | [f] => [false]
  | f :: (g :: _) as r => ((0 <? f)%Z && negb (0 <? g)%Z) :: initIndex r
  end.
(** DataProcess.py:436-438, 490-491: values at flatnonzero(initIndex[:-1]) + 1. *)
Definition initMask (fl : list Z) : list bool :=
  match fl with [] => [] | _ => false :: removelast (initIndex fl) end.
Definition origins {R} (fl : list Z) (l : list R) : list R := compress (map nz fl) l.
Definition initValues {R} (fl : list Z) (l : list R) : list R := compress (initMask fl) l.
(** DataProcess.py:441-443: compress(indicator_ == 0) with the initial entries put to 1. *)
Definition noInitValues {R} (fl : list Z) (l : list R) : list R :=
  compress (map2 (fun f b => negb (nz f) && negb b) fl (initMask fl)) l.

(** * Domains *)
Record box := { b_x0 : Q; b_x1 : Q; b_y0 : Q; b_y1 : Q }.
Definition within (b : box) (p : Q * Q) : bool :=
  Qle_bool (b_x0 b) (fst p) && Qle_bool (fst p) (b_x1 b) && Qle_bool (b_y0 b) (snd p) && Qle_bool (snd p) (b_y1 b).
(** Python's min and max (the first argument when equal). *)
Definition pmin (a b : Q) : Q := if qlt b a then b else a.
Definition pmax (a b : Q) : Q := if qlt a b then b else a.
Definition noLimits : box := {| b_x0 := 9999; b_x1 := -9999; b_y0 := 9999; b_y1 := -9999 |}.
Definition reach (b : box) (p : Q * Q) : box :=
  {| b_x0 := pmin (b_x0 b) (fst p); b_x1 := pmax (b_x1 b) (fst p);
     b_y0 := pmin (b_y0 b) (snd p); b_y1 := pmax (b_y1 b) (snd p) |}.
Definition join (a b : box) : box :=
  {| b_x0 := pmin (b_x0 a) (b_x0 b); b_x1 := pmax (b_x1 a) (b_x1 b);
     b_y0 := pmin (b_y0 a) (b_y0 b); b_y1 := pmax (b_y1 a) (b_y1 b) |}.
Definition whole (a : box) : box :=
  {| b_x0 := inject_Z (Qfloor (b_x0 a)); b_x1 := inject_Z (Qceiling (b_x1 a));
     b_y0 := inject_Z (Qfloor (b_y0 a)); b_y1 := inject_Z (Qceiling (b_y1 a)) |}.
(** CalcTrackDomain.py:65-98 (calc): one iteration and the loop. *)
Definition domainStep (wf : box) (s : box * box) (r : Z * (Q * Q)) : box * box :=
  let lim := reach (if (fst r =? 1)%Z then noLimits else snd s) (snd r) in
  (whole (if within wf (snd r) then join (fst s) lim else fst s), lim).
Definition calcDomain (wf : box) (recs : list (Z * (Q * Q))) : box :=
  fst (fold_left (domainStep wf) recs (wf, noLimits)).

(** DataProcess.py:134-158 (extractTracks) and Utilities/stats.py:305-311 (between, inclusive): [lo] and [hi]
    are the bounds moved outwards by two floating point numbers. The result lists record positions. *)
Definition between (lo hi : Q -> Q) (v a b : Q) : bool := Qle_bool (lo a) v && Qle_bool v (hi b).
Definition starts (lo hi : Q -> Q) (d : box) (p : Q * Q) : bool :=
  between lo hi (fst p) (b_x0 d) (b_x1 d) && between lo hi (snd p) (b_y0 d) (b_y1 d).
Fixpoint extractFrom (lo hi : Q -> Q) (d : box) (i : nat) (flag : bool) (recs : list (Z * (Q * Q))) : list nat :=
  match recs with
  | [] => []
  | (f, p) :: r =>
      let flag := if (f =? 1)%Z then starts lo hi d p else flag in
      if flag then i :: extractFrom lo hi d (S i) flag r else extractFrom lo hi d (S i) flag r
  end.
Definition extractTracks (lo hi : Q -> Q) (d : box) (recs : list (Z * (Q * Q))) : list nat :=
  extractFrom lo hi d 0 false recs.

(** * Annual frequency *)
(** CalcFrequency.py:84-89: genesis strictly inside the domain in the given year. *)
Definition inYear (d : box) (y : Z) (o : Z * (Q * Q)) : bool :=
  (fst o =? y)%Z && qlt (b_x0 d) (fst (snd o)) && qlt (fst (snd o)) (b_x1 d) &&
  qlt (b_y0 d) (snd (snd o)) && qlt (snd (snd o)) (b_y1 d).
Inductive fres := FOk (q : Q) | FNan | FErr.
(** CalcFrequency.py:68-102 (calc). [FErr]: no origins, or a year outside the table of 3000 counters;
    [FNan]: mean of no years. *)
Definition calcFrequency (d : box) (os : list (Z * (Q * Q))) : fres :=
  match map fst os with
  | [] => FErr
  | a :: r =>
      let lo := fold_left Z.min r a in
      let hi := (fold_left Z.max r a - 1)%Z in
      if (hi <? lo)%Z then FNan
      else if (lo <? 0)%Z || (3000 <=? hi)%Z then FErr
      else
        let years := map (fun k => lo + Z.of_nat k)%Z (seq 0 (Z.to_nat (hi - lo + 1))) in
        let counts := map (fun y => length (filter (inYear d y) os)) years in
        FOk (inject_Z (GenModel.rint (inject_Z (Z.of_nat (list_sum counts)) / inject_Z (Z.of_nat (length years)) * 100))
             / 100)%Q
  end.

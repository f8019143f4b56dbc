(** Maps of track density and central pressure: Evaluate/trackDensity.py:46-109, 122-154 and
    Evaluate/pressureDistribution.py:55-207.
    Simplifications: coordinates and pressures are exact rationals; the percentiles, the plots and the choice of
    random samples are not modelled. *)
From Coq Require Import List Arith ZArith Bool QArith Qround.
From Verif Require Import CellModel NumModel SampModel FitModel.
Import ListNotations.
Close Scope Q_scope. Open Scope nat_scope.

(** One record of a track: longitude, latitude, central pressure, year *)
Record rec := mkRec { rlon : Q; rlat : Q; rp : Q; ryear : Z }.
(** The domain and the grid spacing of the configuration *)
Record dom := mkDom { dx0 : Q; dx1 : Q; dy0 : Q; dy1 : Q; ddx : Q; ddy : Q }.

(** trackDensity.py:63-68, pressureDistribution.py:89-94 *)
Definition lonRange (d : dom) : list Q := arange (dx0 d) (dx1 d + (1 # 10)) (ddx d).
Definition latRange (d : dom) : list Q := arange (dy0 d) (dy1 d + (1 # 10)) (ddy d).

(** [numpy.histogram2d]: bin [i] of the edges [e] contains its lower edge, the last bin also its upper edge *)
Definition inBin (e : list Q) (i : nat) (x : Q) : bool :=
  Qle_bool (nth i e 0%Q) x && (qlt x (nth (S i) e 0%Q) || ((S (S i) =? length e) && Qeq_bool x (nth (S i) e 0%Q))).
Definition histogram2d (xe ye : list Q) (pts : list (Q * Q)) : list (list nat) :=
  map (fun i => map (fun j => length (filter (fun p => inBin xe i (fst p) && inBin ye j (snd p)) pts)) (seq 0 (length ye - 1)))
      (seq 0 (length xe - 1)).
(** trackDensity.py:89-109 *)
Definition density (d : dom) (tracks : list (list rec)) : list (list nat) :=
  histogram2d (lonRange d) (latRange d) (map (fun r => (rlon r, rlat r)) (concat tracks)).
(** trackDensity.py:147-154: observations per year; [None]: infinite or not a number *)
Definition numYears (tracks : list (list rec)) : Z :=
  let ys := map ryear (concat tracks) in (fold_left Z.max ys 0 - fold_left Z.min ys 9999)%Z.
Definition historicDensity (d : dom) (tracks : list (list rec)) : list (list (option Q)) :=
  map (map (fun n => if (numYears tracks =? 0)%Z then None else Some (inject_Z (Z.of_nat n) / inject_Z (numYears tracks))%Q)) (density d tracks).

(** pressureDistribution.py:103-114, 133-143: the pressures that count for the cell in column [k] and row [l]; [sys.maxsize]
    marks missing pressures *)
Definition maxsize : Q := inject_Z 9223372036854775807.
Definition cellValues (d : dom) (tracks : list (list rec)) (k l : nat) : list Q :=
  let xmin := nth k (lonRange d) 0%Q in let ymin := nth l (latRange d) 0%Q in
  flat_map (fun t =>
    filter (fun p => qlt 0 p)
      (filter (fun p => qlt p maxsize)
        (map rp (filter (fun r => Qle_bool ymin (rlat r) && qlt (rlat r) (ymin + ddy d)%Q && (Qle_bool xmin (rlon r) && qlt (rlon r) (xmin + ddx d)%Q)) t)))) tracks.
Definition sumq (l : list Q) : Q := fold_right Qplus 0%Q l.
Definition meanq (l : list Q) : Q := (sumq l / inject_Z (Z.of_nat (length l)))%Q.
(** [numpy.median] *)
Definition median (l : list Q) : Q :=
  let s := sortq l in let n := length l in
  if Nat.even n then ((nth (n / 2 - 1) s 0 + nth (n / 2) s 0) / 2)%Q else nth (n / 2) s 0%Q.
Record pstats := mkStats { smean : Q; smin : Q; smax : Q; smed : Q }.
(** pressureDistribution.py:145-155: statistics of one cell, [None]: masked *)
Definition cellStats (d : dom) (tracks : list (list rec)) (k l : nat) : option pstats :=
  match cellValues d tracks k l with
  | [] => None
  | a :: r => let v := a :: r in Some (mkStats (meanq v) (amin a r) (amax a r) (median v))
  end.
Definition pressureMap (d : dom) (tracks : list (list rec)) : list (list (option pstats)) :=
  map (fun k => map (fun l => cellStats d tracks k l) (seq 0 (length (latRange d) - 1))) (seq 0 (length (lonRange d) - 1)).
(** pressureDistribution.py:188-196: the mean over the simulations that have a value, [None]: masked *)
Definition maskedMean (l : list (option Q)) : option Q :=
  match flat_map (fun o => match o with Some x => [x] | None => [] end) l with [] => None | v => Some (meanq v) end.
(** Utilities/track.py:115-136 and pressureDistribution.py:166-170: the lowest pressure of each track that starts in
    the domain, zero for the others. Tracks have records; missing pressures are as large as [maxsize]. *)
Definition inRegion (d : dom) (t : list rec) : bool :=
  match t with
  | [] => false
  | r :: _ => Qle_bool (dx0 d) (rlon r) && Qle_bool (rlon r) (dx1 d) && Qle_bool (dy0 d) (rlat r) && Qle_bool (rlat r) (dy1 d)
  end.
Definition minCP (d : dom) (t : list rec) : Q :=
  if inRegion d t then match map rp t with [] => 0%Q | a :: r => amin a r end else 0%Q.
(** pressureDistribution.py:172-174: the bins from 850 to 1015 hPa, normalised to integral one; [None]: no pressure
    in the bins, the values are not numbers *)
Definition cpBins : list Q := map (fun i => (850 + 5 * inject_Z (Z.of_nat i))%Q) (seq 0 34).
Definition minCPDist (d : dom) (tracks : list (list rec)) : list (option Q) :=
  let v := map (minCP d) tracks in
  let counts := map (fun i => length (filter (inBin cpBins i) v)) (seq 0 33) in
  let total := fold_right Nat.add 0 counts in
  map (fun n => if total =? 0 then None else Some (inject_Z (Z.of_nat n) / (5 * inject_Z (Z.of_nat total)))%Q) counts.

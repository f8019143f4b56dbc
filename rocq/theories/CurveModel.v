(** Model of the figures of hazard curves (PlotInterface/AutoPlotHazard.py:48-75, 190-258 and
    PlotInterface/curves.py:336-430) and of the numbers behind the statistical figures (PlotInterface/figures.py:121-160,
    207-330).  Drawing itself is not modelled: a figure is the list of its points, its labels and its limits.  Values are
    exact rationals, a masked value is [None]. *)
From Coq Require Import List Arith ZArith Bool QArith Qround Qabs String.
From Verif Require Import CellModel NumModel SampModel LmomModel FitModel DensityModel.
Import ListNotations.
Local Open Scope list_scope.
Local Open Scope Q_scope.

(** * Units of the figures *)
Definition qrange (a step : Z) (n : nat) : list Q :=
  map (fun k => inject_Z (a + step * Z.of_nat k)) (seq 0 n).
(** PlotUnits, AutoPlotHazard.py:50-70: the label and the levels of the maps; [None]: KeyError *)
Definition plotUnits (u : string) : option (string * list Q) :=
  assoc u [("mps"%string, ("m/s"%string, qrange 30 5 15)); ("mph"%string, ("mi/h"%string, qrange 80 10 15));
           ("kts"%string, ("kts"%string, qrange 60 10 15)); ("kph"%string, ("km/h"%string, qrange 80 20 15));
           ("kmh"%string, ("km/h"%string, qrange 80 20 15))].

(** * Empirical recurrence intervals *)
(** AutoPlotHazard.py:222-227: one value for each day of the simulation, the records of the place in the last days, and
    sorted; [None]: more records than days do not fit (ValueError).  A negative number of simulations is not modelled. *)
Definition allEvents (numsim : Z) (recs : list Q) : option (list Q) :=
  let n := empDays numsim in
  if (n <? List.length recs)%nat then None
  else Some (sortq (repeat 0 (n - List.length recs) ++ recs)).
(** empReturnPeriod, curves.py:409-430, of [n] values with 365.25 a year *)
Definition curveRp (n : nat) : list Q :=
  map (fun i => 1 / (1 - qn i / (qn n + 1)) / 365.25) (seq 1 n).
(** curves.py:389-390: the dots *)
Definition dots (events : list Q) : list (Q * Q) :=
  filter (fun p => qlt 1 (fst p)) (combine (curveRp (List.length events)) events).

(** * One figure *)
Definition present {A} (l : list (option A)) : list A :=
  flat_map (fun o => match o with Some x => [x] | None => [] end) l.
(** curves.py:395 and 399-400: is the range drawn, and the upper limit of the axis; the maximum of a masked array leaves
    masked values out *)
Definition positive (o : option Q) : bool := match o with Some x => qlt 0 x | None => false end.
Definition rangeShown (ymin ymax : list (option Q)) : bool :=
  match ymin, ymax with a :: _, b :: _ => positive a && positive b | _, _ => false end.
Definition axisTop (ymean : list (option Q)) : Q :=
  match present ymean with
  | [] => 100
  | a :: r => amax 100 [inject_Z (Qceiling (amax a r / 10)) * 10]
  end.
Record figure := mkFig {
  f_id : nat;                                  (* the number in the file name ARI_curve_%s.png *)
  f_label : string;                            (* unit written at the vertical axis *)
  f_line : list (Q * option Q);                (* fitted curve: years, speed *)
  f_dots : list (Q * Q);                       (* empirical values: years, speed *)
  f_range : option (list (Q * (option Q * option Q)));  (* shaded range: years, lower, upper *)
  f_top : Q }.                                 (* the vertical axis goes from 0 to this *)

Section Curves.
  Variable pi : Q.                             (* math.pi, of NumModel.convert *)
  Variables (units : string) (ci : bool) (numsim : Z).
  (** dimensions of the hazard file, and its three variables: interval, row (lat), column (lon) *)
  Variables (lons lats years : list Q).
  Variables (wspd wlow wup : nat -> nat -> nat -> option Q).

  Inductive outcome := Failed | Skipped | Drawn (f : figure).
  Definition column (w : nat -> nat -> nat -> option Q) (j i : nat) : list (option Q) :=
    map (fun k => option_map (fun v => convert pi v "mps" units) (w k j i)) (seq 0 (List.length years)).
  (** the body of the loop, AutoPlotHazard.py:207-256, for a place (number, longitude, latitude) with records [recs] *)
  Definition placeCurve (p : nat * Q * Q) (recs : list Q) : outcome :=
    match plotUnits units, findIndex lons (snd (fst p)), findIndex lats (snd p), allEvents numsim recs with
    | Some (label, _), Some i, Some j, Some events =>
        let mean := column wspd j i in
        match present mean with
        | [] => Skipped
        | _ =>
            let zero := map (fun _ => Some 0) years in
            let low := if ci then column wlow j i else zero in
            let up := if ci then column wup j i else zero in
            Drawn (mkFig (fst (fst p)) label (combine years mean) (dots events)
                     (if rangeShown low up then Some (combine years (combine low up)) else None)
                     (axisTop mean))
        end
    | _, _, _, _ => Failed
    end.
  (** plotHazardCurves, 190-258: the figures saved, and whether the loop ran to its end *)
  Fixpoint plotCurves (places : list (nat * Q * Q)) (records : nat -> list Q) : list figure * bool :=
    match places with
    | [] => ([], true)
    | p :: r =>
        match placeCurve p (records (fst (fst p))) with
        | Failed => ([], false)
        | Skipped => plotCurves r records
        | Drawn f => let (fs, ok) := plotCurves r records in (f :: fs, ok)
        end
    end.
End Curves.

(** * Percentiles, figures.py:133-137, by scipy's scoreatpercentile: linear interpolation between sorted values *)
Definition percentile (l : list Q) (q : Q) : Q :=
  let s := sortq l in
  let idx := q / 100 * (qn (List.length l) - 1) in
  let i := Z.to_nat (Qfloor idx) in
  let w := idx - qn i in
  if Qeq_bool w 0 then nth i s 0 else nth i s 0 * (1 - w) + nth (i + 1) s 0 * w.
Definition percentiles (l : list Q) : list Q := map (fun k => percentile l (qn k)) (seq 1 100).
(** the points of a quantile-quantile figure, figures.py:173-181 *)
Definition quantilePoints (x y : list Q) : list (Q * Q) := combine (percentiles x) (percentiles y).

(** * Regression figures *)
(** prepareData, figures.py:219-222, with the transformation [f] of both coordinates *)
Definition prepareData (f : Q -> Q) (x y : list Q) : list (Q * Q) :=
  map (fun p => (f (fst p), f (snd p)))
    (filter (fun p => qlt (fst p) maxsize && qlt (snd p) maxsize) (combine x y)).
(** filterOutliers, figures.py:225-229; with a deviation of 0 the test is [0 < m] and keeps everything *)
Definition filterOutliers (data : list Q) : list Q :=
  let med := median data in
  let mdev := median (map (fun x => Qabs (x - med)) data) in
  if Qeq_bool mdev 0 then data else filter (fun x => qlt (Qabs (x - med) / mdev) 12) data.
(** the limits of one axis, figures.py:231-237; [None]: [min] of nothing *)
Definition axisLimits (data : list Q) : option (Q * Q) :=
  match filterOutliers data with [] => None | a :: r => Some (amin a r, amax a r) end.
(** LaggedRegressionFigure.add, figures.py:284-290: the time written at each axis, and the points *)
Inductive when := Now | Before.
Definition lagged (data : list Q) : (when * when) * list (Q * Q) :=
  ((Before, Now), combine (tl data) (removelast data)).
(** FrequencyFigure, figures.py:352-355: the first and the last year are left out *)
Definition inner {A} (l : list A) : list A := removelast (tl l).
Definition frequencyPoints (years frequency : list Q) : list (Q * Q) := combine (inner years) (inner frequency).

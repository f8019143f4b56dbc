(** The statistical figures of the input data: PlotInterface/plotStats.py:82-112 (scatterHistogram), 166-403, as tcrm.py:263-345
    (doDataPlotting) calls them. Drawing is not modelled: a figure is the list of its points and its labels. Numbers are
    exact rationals, for trigonometric functions and square roots reals; a missing value is [maxsize]. *)
From Coq Require Import List Arith ZArith Bool QArith Reals.
From Verif Require Import CellModel NumModel FitModel DensityModel CurveModel SeriesModel CoefModel.
Import ListNotations.
Local Open Scope Q_scope.

Definition there (x : Q) : bool := qlt x maxsize.
(** scatterHistogram, plotStats.py:101-104: the points *)
Definition scatter {A} (transform : Q -> A) (xdata ydata : list Q) : list (A * A) :=
  map (fun p => (transform (fst p), transform (snd p))) (filter (fun p => there (fst p) && there (snd p)) (combine xdata ydata)).
(** [scatterHistogram(data\[1:\], data\[:-1\], ...)] of plotPressure, plotPressureRate, plotBearing, plotBearingRate, plotSpeed and
    plotSpeedRate, 250-331, with the times that the labels name *)
Definition laggedFigure {A} (transform : Q -> A) (data : list Q) : (when * when) * list (A * A) :=
  ((Now, Before), scatter transform (tl data) (removelast data)).
(** plotBearing, 303-310: the cosine of half the bearing, as numpy computes it of the number of degrees *)
Definition bearingTransform (x : R) : R := cos (x / 2).

(** plotMinPressure, 276-284 (the same in minPressureHist, 175-183): the loop over all records but the last. The list is kept
    with the latest cyclone first; [None]: IndexError of [pcarray\[-1\]] of the empty list *)
Fixpoint minLoop (recs : list (Z * Q)) (acc : list Q) : option (list Q) :=
  match recs with
  | [] => Some (rev acc)
  | (i, p) :: r =>
      if (i =? 1)%Z then minLoop r (p :: acc)
      else match acc with
           | [] => None
           | m :: a => minLoop r ((if qlt p m then p else m) :: a)
           end
  end.
Definition minPressures (index : list Z) (pressures : list Q) : option (list Q) :=
  option_map (filter there) (minLoop (removelast (combine index pressures)) []).
(** 286 and the histogram of 289: the bins from 850 to 1015, what falls into one of them *)
Definition pressureBins : list Q := qrange 850 5 34.
Definition inHistogram (p : Q) : bool := Qle_bool (nth 0 pressureBins 0) p && Qle_bool p (last pressureBins 0).

(** plotSpeedBear, 206-218: the labels of the angles 0, 45, ..., 315, the points (angle in degrees, distance) and the
    indices used for the correlation: those of negative labels; [None]: IndexError *)
Definition rawLabels : list Z := map (fun k => 90 - 45 * Z.of_nat k)%Z (seq 0 8).
Definition thetaLabels : list Z := map (fun t => if (t <? 0)%Z then t + 360 else t)%Z rawLabels.
Definition polarPoints (speed bearing : list Q) : list (Q * Q) :=
  map (fun p => (90 - snd p, fst p)) (filter (fun p => there (fst p) && there (snd p)) (combine speed bearing)).
Definition corrIndices : list nat := filter (fun k => (nth k rawLabels 0 <? 0)%Z) (seq 0 8).
Fixpoint pick {A} (l : list A) (ks : list nat) : option (list A) :=
  match ks with
  | [] => Some []
  | k :: r => match nth_error l k, pick l r with Some a, Some b => Some (a :: b) | _, _ => None end
  end.
Definition corrSample (speed bearing : list Q) : option (list Q * list Q) :=
  match pick bearing corrIndices, pick speed corrIndices with Some b, Some s => Some (b, s) | _, _ => None end.

(** quantile, 232-236: the standardised values *)
Definition standardised (d : list R) : list R := map (fun x => (x - mean d) / std d)%R d.

(** plotLonLat, 385-403: the differences within cyclones, of longitudes with one wrap, and the figures with the times of
    their labels *)
Definition steps (ind : list Z) (x : list Q) : list Q :=
  map snd (filter (fun p => (fst p =? 0)%Z) (combine (tl ind) (map (fun p => fst p - snd p) (combine (tl x) x)))).
Definition wrapStep (d : Q) : Q := if qlt d (-(180)) then d + 360 else d.
Definition dlon (ind : list Z) (lon : list Q) : list Q := map wrapStep (steps ind lon).
Definition dlonFigure (ind : list Z) (lon : list Q) : (when * when) * list (Q * Q) :=
  ((Before, Now), scatter (fun x => x) (tl (dlon ind lon)) (removelast (dlon ind lon))).

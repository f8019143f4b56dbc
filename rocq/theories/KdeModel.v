(** Model of the kernel density estimates behind the sampled distributions:
    StatInterface/KDEParameters.py:71-227, StatInterface/KDEOrigin.py:66-194,
    StatInterface/circularKDE.py:24-50 and the helpers bandwidth,
    statMaxRange, statMinRange and probability of Utilities/stats.py.

    Numbers are exact reals (exact rationals for the ranges).  The library
    statsmodels is modelled by its documented estimate, the mean of the
    scaled kernels; its own choice of the bandwidth is the parameter
    [libbw].  NaN, which the library returns where no observation is in
    reach and which the code replaces by 0, is the sum of no kernels. *)
From Coq Require Import Reals ZArith QArith Qround List Bool.
From Verif Require Import Base CircleModel SeriesModel SampModel MapModel.
Import ListNotations.
Local Open Scope R_scope.

(** The estimate of [KDEUnivariate.evaluate] at x for bandwidth h and
    kernel K. *)
Definition kdens (K : R -> R) (h : R) (data : list R) (x : R) : R :=
  sumR (map (fun xi => K ((xi - x) / h)) data) / (h * INR (length data)).

(** The data repeated one period earlier and later,
    StatInterface/KDEParameters.py:139-141. *)
Definition triple (p : R) (data : list R) : list R :=
  map (fun d => d - p) data ++ data ++ map (fun d => d + p) data.

(** Utilities/stats.py:316-337 for one-dimensional data: [np.std] divides by
    the number of observations. *)
Definition variance (data : list R) : R :=
  mean (map (fun d => (d - mean data) * (d - mean data)) data).
Definition bandwidth (data : list R) : R :=
  106 / 100 * sqrt (variance data) * Rpower (INR (length data)) (- 1 / 5).

(** The kinds of data of generateKDE. *)
Inductive rkind := RPlain | RAngular | RPeriodic (p : R).

(** generateKDE, StatInterface/KDEParameters.py:136-158: the density at a
    grid point x.  None: [_generatePDF] raises ValueError because the
    bandwidth of Utilities/stats.py is not positive (lines 236-238); the
    estimate itself uses the bandwidth of the library ([kde.fit] is called
    without one, line 242). *)
Definition kdeData (k : rkind) (data : list R) : list R :=
  match k with RPeriodic p => triple p data | _ => data end.
Definition kdePdf (K : R -> R) (libbw : list R -> R) (k : rkind) (data : list R) (x : R) : option R :=
  let d := kdeData k data in
  if rlt 0 (bandwidth d) then
    Some (match k with
          | RPeriodic _ => 3 * kdens K (libbw d) d x
          | _ => kdens K (libbw d) d x
          end)
  else None.

(** generateGenesisDateCDF, StatInterface/KDEParameters.py:171-227: the
    density at a day.  [params] is the attribute [self.parameters], which is
    set by generateKDE only (None: AttributeError); [file] are the days read
    from the file named by the argument. *)
Definition genesisDate (K : R -> R) (libbw : list R -> R) (bw : option R)
    (params : option (list R)) (file : list R) (day : R) : option R :=
  match params with
  | None => None
  | Some ps =>
      let h := match bw with Some b => b | None => bandwidth ps end in
      Some (3 * kdens K h ps day)
  end.

(** circularKDE, StatInterface/circularKDE.py:39-49.  [mem] is what
    [np.empty] happens to find in memory, [grid] the points, and [kernel k]
    the values of the kernel of the observation k on the grid (line 43). *)
Definition addv (a b : list R) : list R := map (fun p => fst p + snd p) (combine a b).
Definition circularPdf (mem : list R) (kernel : R -> list R) (params : list R) : list R :=
  let total := fold_left (fun pdf k => let kH := kernel k in
                            addv pdf (map (fun v => v / sumR kH) kH)) params mem in
  map (fun v => v / INR (length total)) total.

(** KDEOrigin, StatInterface/KDEOrigin.py:66-194: the directory is known
    only if the positions are read from the file (lines 84-93).  The
    two-dimensional estimate is the function [dens] of a position. *)
Record origins := mkOrigins { k_x : list Q; k_y : list Q; k_process : option nat;
                              k_data : list (Q * Q) }.
Definition inDomain (xMin xMax yMin yMax : Q) (p : Q * Q) : bool :=
  Qle_bool xMin (fst p) && Qle_bool (fst p) xMax && Qle_bool yMin (snd p) && Qle_bool (snd p) yMax.
Definition originInit (xMin xMax yMin yMax step : Q) (dir : nat) (file : list (Q * Q))
    (lonLat : option (list (Q * Q))) : origins :=
  mkOrigins (originGridX xMin xMax step) (originGridY yMin yMax step)
            (match lonLat with None => Some dir | Some _ => None end)
            (filter (inDomain xMin xMax yMin yMax) (match lonLat with None => file | Some l => l end)).

(** The values of the grid file: the directory and one row for each
    latitude (lines 122-126 and 156; [np.meshgrid], [ravel] and [reshape]),
    and the returned, transposed array (line 128).  None: AttributeError at
    line 165. *)
Definition gridRows {V} (dens : Q -> Q -> V) (o : origins) : list (list V) :=
  map (fun y => map (fun x => dens x y) (k_x o)) (k_y o).
Definition gridCols {V} (dens : Q -> Q -> V) (o : origins) : list (list V) :=
  map (fun x => map (fun y => dens x y) (k_y o)) (k_x o).
Definition originKDE {V} (dens : list (Q * Q) -> Q -> Q -> V) (o : origins) (save : bool)
  : option (option (nat * list (list V)) * list (list V)) :=
  let d := dens (k_data o) in
  if save then match k_process o with
               | Some p => Some (Some (p, gridRows d o), gridCols d o)
               | None => None
               end
  else Some (None, gridCols d o).

(** statMaxRange and statMinRange, Utilities/stats.py:160-184.  None:
    ValueError. *)
Definition statMaxRange (lo hi step : Q) : option Q :=
  if negb (Qle_bool lo hi) || Qle_bool step 0 then None
  else Some (last (SampModel.arange lo (hi + step) step) 0%Q).
Definition statMinRange (lo hi step : Q) : option Q :=
  if negb (Qle_bool lo hi) || Qle_bool step 0 then None
  else Some (last (SampModel.arange hi (lo - step) (- step)) 0%Q).

(** probability, Utilities/stats.py:278-281. *)
Definition probability (return_period : R) : R := 1 - exp (- 1 / return_period).

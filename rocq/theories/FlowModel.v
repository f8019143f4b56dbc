(** The files passed from one part of a run to the next: which files each part reads and writes, in what order, and
    what happens to files of earlier runs in the same output directory.  The contents of a file are abstracted to the
    set of runs its data come from (and, for a track file, the number of its tracks).
    tcrm.py:235-258 (doDataProcessing), 262-343 (doDataPlotting), 346-395 (doStatistics), 177-203 (doTrackGeneration),
    206-231 (doWindfieldCalculations), 398-422 (doHazard), 425-449 (doHazardPlotting), 501-580 (main).
    Simplifications: one process; the database, evaluation and download parts are left out; figures are not recorded. *)
From Coq Require Import List Arith Bool String.
Import ListNotations.
Open Scope nat_scope.

(** A file in output/process by its name, a track file and a gust file by their numbers, hazard/hazard.nc. *)
Inductive file := P (name : string) | Trk (sim : nat) | Gst (k sim : nat) | Haz.
Definition file_eqb (a b : file) : bool :=
  match a, b with
  | P x, P y => String.eqb x y
  | Trk i, Trk j => Nat.eqb i j
  | Gst k i, Gst l j => Nat.eqb k l && Nat.eqb i j
  | Haz, Haz => true
  | _, _ => false
  end.
Record val := { prov : list nat; size : nat }.
Definition store := list (file * val).
Fixpoint get (s : store) (f : file) : option val :=
  match s with [] => None | (g, v) :: r => if file_eqb f g then Some v else get r f end.
Definition put (s : store) (f : file) (v : val) : store := (f, v) :: filter (fun gv => negb (file_eqb f (fst gv))) s.

(** * Reading and writing *)
Open Scope string_scope.
Inductive op :=
| Rd (n : string)      (** flLoadFile and others: IOError for a missing file *)
| RdCdf (n : string)   (** TrackGenerator.load, 337-364: the netCDF version if there is one, else the text version *)
| RdOpt (n : string)   (** the same, a missing file being tolerated (382-391) *)
| Wr (n : string)
| Fail.
(** the union of two sets of runs *)
Definition join (a b : list nat) : list nat := nodup Nat.eq_dec (a ++ b).
(** [acc]: the runs the data read so far come from; [false]: an exception *)
Fixpoint exec (ops : list op) (acc : list nat) (s : store) : store * list nat * bool :=
  match ops with
  | [] => (s, acc, true)
  | Rd n :: r => match get s (P n) with Some v => exec r (join (prov v) acc) s | None => (s, acc, false) end
  | RdCdf n :: r =>
      match get s (P (n ++ ".nc")) with
      | Some v => exec r (join (prov v) acc) s
      | None => match get s (P n) with Some v => exec r (join (prov v) acc) s | None => (s, acc, false) end
      end
  | RdOpt n :: r =>
      match get s (P (n ++ ".nc")) with
      | Some v => exec r (join (prov v) acc) s
      | None => match get s (P n) with Some v => exec r (join (prov v) acc) s | None => exec r acc s end
      end
  | Wr n :: r => exec r acc (put s (P n) {| prov := acc; size := 0 |})
  | Fail :: _ => (s, acc, false)
  end.

(** * Settings and input *)
Inductive format := Txt | Nc | Other.
Record cfg := {
  fmt : format;          (** Output/Format *)
  hasAge : bool;         (** the input has a column age *)
  hasRmax : bool;        (** the input has a column rmax *)
  oneYear : bool;        (** all records are of one year *)
  rmwFromInput : bool;   (** RMW/GetRMWDistFromInputData *)
  limitGiven : bool;     (** TrackGenerator/gridLimit *)
  freqGiven : bool;      (** TrackGenerator/Frequency *)
  nsim : nat             (** TrackGenerator/NumSimulations *)
}.

(** DataProcess.processData, DataProcess/DataProcess.py:156-365.  Line 269 uses an attribute that is only set for the
    text format (112-114).  With a column age the years and days are never computed (221-244), and line 356 fails
    with an exception that is not caught there.  Frequencies are not written for a single year (790-801). *)
Definition dataProcess (c : cfg) : list op :=
  match fmt c with
  | Txt =>
      [Wr "origin_year"] ++
      (if hasRmax c then [Wr "all_rmax"; Wr "init_rmax"; Wr "rmax_no_init"; Wr "rmax_rate"] else []) ++
      [Wr "origin_lon_lat"; Wr "init_lon_lat"; Wr "all_lon_lat"; Wr "cyclone_tracks";
       Wr "all_bearing"; Wr "init_bearing"; Wr "bearing_no_init"; Wr "bearing_rate";
       Wr "all_speed"; Wr "init_speed"; Wr "speed_no_init"; Wr "speed_rate";
       Wr "all_pressure"; Wr "init_pressure"; Wr "pressure_no_init"; Wr "pressure_rate"; Wr "wind_speed"] ++
      (if hasAge c then [Fail] else
       (if oneYear c then [] else [Wr "frequency"]) ++ [Wr "jday_genesis"; Wr "jday_obs"; Wr "jdays"])
  | _ => [Fail]
  end.

(** GenerateDistributions.allDistributions, 112-235: positions, values, then the text and netCDF versions *)
Definition cellCdf (lonlat values name : string) : list op :=
  [Rd lonlat; Rd values; Wr ("all_cell_cdf_" ++ name); Wr ("all_cell_cdf_" ++ name ++ ".nc")].
(** calcCellStatistics, StatInterface/StatInterface.py:203-280 *)
Definition cellStats (values out : string) : list op := [Rd "all_lon_lat"; Rd values; Wr (out ++ ".nc")].
(** doStatistics, tcrm.py:346-395; CalcTrackDomain.calcDomainFromFile:137-145; KDEOrigin:85-93, 165 *)
Definition statistics (c : cfg) : list op :=
  [Rd "cyclone_tracks"] ++
  cellCdf "origin_lon_lat" "jdays" "init_day" ++
  [Rd "init_lon_lat"; Wr "originPDF.nc"] ++
  cellCdf "init_lon_lat" "init_bearing" "init_bearing" ++
  cellCdf "init_lon_lat" "init_speed" "init_speed" ++
  cellCdf "origin_lon_lat" "init_pressure" "init_pressure" ++
  cellStats "all_speed" "speed_stats" ++ cellStats "speed_rate" "speed_rate_stats" ++
  cellStats "all_pressure" "pressure_stats" ++ cellStats "pressure_rate" "pressure_rate_stats" ++
  cellStats "all_bearing" "bearing_stats" ++ cellStats "bearing_rate" "bearing_rate_stats" ++
  (if rmwFromInput c then cellCdf "origin_lon_lat" "init_rmax" "init_rmax" else []).

(** TrackGenerator.run, TrackGenerator/TrackGenerator.py:1735-1895, up to the generation of the tracks; CalcFrequency:
    60-102; loadInitialConditionDistributions:314-391; loadCellStatistics:393-438 *)
Definition trackSetup (c : cfg) : list op :=
  (if limitGiven c then [] else [Rd "cyclone_tracks"]) ++
  (if freqGiven c then [] else [Rd "origin_year"; Rd "origin_lon_lat"; Wr "region_frequency"]) ++
  [Rd "originPDF.nc"; RdCdf "all_cell_cdf_init_bearing"; RdCdf "all_cell_cdf_init_speed";
   RdCdf "all_cell_cdf_init_pressure"; RdCdf "all_cell_cdf_init_day"; RdOpt "all_cell_cdf_init_rmax";
   Rd "speed_stats.nc"; Rd "pressure_stats.nc"; Rd "bearing_stats.nc"; Rd "pressure_rate_stats.nc"].
(** 1880-1891: one file for each simulation, holding [tcs] tracks *)
Definition saveTracks (acc : list nat) (tcs : nat -> nat) (sims : list nat) (s : store) : store :=
  fold_left (fun s i => put s (Trk i) {| prov := acc; size := tcs i |}) sims s.

(** wind.run, wind/__init__.py:962-975 and 510-561: every file in output/tracks whose name begins with tracks; a usable
    gust file that is already there is kept *)
Definition gust (tag : nat) (v : val) (sim : nat) (s : store) (k : nat) : store :=
  match get s (Gst k sim) with Some _ => s | None => put s (Gst k sim) {| prov := join [tag] (prov v); size := 0 |} end.
Definition windTrackFile (tag : nat) (s : store) (fv : file * val) : store :=
  match fst fv with Trk i => fold_left (gust tag (snd fv) i) (seq 0 (size (snd fv))) s | _ => s end.
Definition windfields (tag : nat) (s : store) : store := fold_left (windTrackFile tag) s s.

(** hazard.run, hazard/__init__.py:1003 and 56 (the first file of the directory, IndexError if there is none), and
    aggregateWindFields, 878-895: all gust files of the simulated years; saveHazard *)
Definition isGust (fv : file * val) : bool := match fst fv with Gst _ _ => true | _ => false end.
Definition usedGust (n : nat) (fv : file * val) : bool := match fst fv with Gst _ i => Nat.ltb i n | _ => false end.
Definition hazard (tag : nat) (c : cfg) (s : store) : store * bool :=
  if existsb isGust s then
    (put s Haz {| prov := join [tag] (flat_map (fun fv => prov (snd fv)) (filter (usedGust (nsim c)) s)); size := 0 |}, true)
  else (s, false).

(** doDataPlotting, tcrm.py:282-300 *)
Definition dataPlots : list op :=
  map Rd ["pressure_rate"; "all_pressure"; "bearing_rate"; "all_bearing"; "speed_rate"; "all_speed"; "frequency";
          "cyclone_tracks"; "jday_obs"; "jday_genesis"].

(** * main, tcrm.py:501-580 *)
Inductive action := DataProcess | ExecuteStat | ExecuteTrackGenerator | ExecuteWindfield | ExecuteHazard | PlotData | PlotHazard.
Definition order : list action := [DataProcess; ExecuteStat; ExecuteTrackGenerator; ExecuteWindfield; ExecuteHazard; PlotData; PlotHazard].
(** [tag]: the number of the run, [tcs]: the numbers of cyclones drawn for the simulations *)
Definition act (tag : nat) (c : cfg) (tcs : nat -> nat) (a : action) (s : store) : store * bool :=
  match a with
  | DataProcess => let '(s', _, ok) := exec (dataProcess c) [tag] s in (s', ok)
  | ExecuteStat => let '(s', _, ok) := exec (statistics c) [tag] s in (s', ok)
  | ExecuteTrackGenerator =>
      let '(s', acc, ok) := exec (trackSetup c) [tag] s in
      if ok then (saveTracks acc tcs (seq 0 (nsim c)) s', true) else (s', false)
  | ExecuteWindfield => (windfields tag s, true)
  | ExecuteHazard => hazard tag c s
  | PlotData => let '(s', _, ok) := exec dataPlots [tag] s in (s', ok)
  | PlotHazard => (s, match get s Haz with Some _ => true | None => false end)
  end.
Fixpoint acts (tag : nat) (c : cfg) (tcs : nat -> nat) (l : list action) (s : store) : store * bool :=
  match l with
  | [] => (s, true)
  | a :: r => let '(s', ok) := act tag c tcs a s in if ok then acts tag c tcs r s' else (s', false)
  end.
(** [wanted]: the section Actions *)
Definition main (tag : nat) (c : cfg) (tcs : nat -> nat) (wanted : action -> bool) (s : store) : store * bool :=
  acts tag c tcs (filter wanted order) s.

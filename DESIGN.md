# Formal model of TCRM in Rocq (Coq 8.16.1)

Source: `/repo` (GeoscienceAustralia/tcrm, Python), read as text, never run.
Properties: `properties.jsonl`. Theorems claimed per property: `MANIFEST.json`.
Mutation attempts: `seeded/LOG.jsonl`.

## Layout

Every topic has up to four files in `rocq/theories/`:

* `<Topic>Model.v`  – Gallina functions mirroring the Python, branch by branch.
  Every definition has a comment with the file and lines it models and the
  simplifications made.
* `<Topic>Spec.v`   – what a user expects, written without the model's helpers.
* `<Topic>Proofs.v` – lemmas.
* `<Topic>Props.v`  – only the property theorems (`exact lemma.`), an `Example`
  showing that the hypotheses are met by a concrete case, `Print Assumptions`.

Naming: `cNN_…` proves (part of) property `CNN`. `…_partial` proves a weaker
statement than the property text, and says what is missing. `…_refuted` proves
that the code as it stands violates the property text; the witness is concrete.

## Modelling conventions

* Python exceptions are values (`result` with an error constructor).
* Floats are exact rationals `Q`, integers `Z`, or reals `R` where `exp`, `sqrt`
  or real powers occur. IEEE rounding, overflow and NaN propagation are not
  modelled unless a definition says so (`option` is used where NaN or the missing
  value matters).
* numpy arrays are lists (vectors), or functions from indices where only
  pointwise behaviour matters.
* MPI programs are transition systems: the state holds the program counter of
  each rank and FIFO channels; the scheduler picks any enabled step.
* Library calls (numpy, scipy fits, netCDF, sqlite, OS) are Section variables or
  explicit parameters of the model; what is assumed about them is a hypothesis
  visible in the closed theorem.

## Trusted base

* Coq's kernel (and `coqchk`).
* The axioms listed by `Print Assumptions` under each theorem; see the table at
  the end of this file. Theorems over `Z`, `Q`, lists and transition systems are
  closed under the global context. Theorems over `R` use the standard library's
  real-number axioms.
* The reading of the Python: nothing ties the model to the code except the
  citations.

## Plan per property

| id | modelled | method |
|----|----------|--------|
| C01 | dumpHazardFromTiles: master and workers as transition system with FIFO channels, ANY_SOURCE receive | invariant over all interleavings, decreasing measure, final state = serial fold |
| C02 | tileGrid / getGridLimit / getTileLimits over Z | interval arithmetic; unique tile per point |
| C03 | aggregateWindFields | max over list; permutation invariance |
| C04 | balanced (islice with stride) | positional characterisation |
| C05 | loadTracksFromFiles both branches, filterTracks | permutation of concatenation over ranks |
| C06 | inRegion bounding box test over Q | order reasoning; witness for the kept-but-outside case |
| C07 | regionalExtremes fold at one grid point, windows | induction over time steps |
| C08 | calculateExtremesFromTrackfile update order | induction; refutation for the components |
| C09 | dumpGustsFromTracks against a file system with crash points inside ncSaveGrid | invariant over histories; refutation for crash between creation and data write |
| C10 | gustFilename formatting (%03d-%05d) | injectivity of decimal padding |
| C11 | processEvents / processTracks protocol, row insertion | reuse of C01 transition system with append instead of array write |
| C12 | segment loop of processMultV2 | as C02 |
| C13 | thread pool over queue | transition system; result equality proved; deadlock refuted for two workers |
| C14 | direction sectors and band numbers | case analysis over Q |
| C15 | getCellNum, getCellLonLat, maxCellNum, validCellNum | integer division; one-sided domains proved, straddling refuted |
| C16 | extractParameter, _expandCell, _checkGridLimits | fuel with bound shown sufficient |
| C17 | window bounds against cell numbering | order reasoning; refuted on the eastern/northern convention |
| C18 | cdf, cdf2d | induction on lists over Q |
| C19 | SamplingOrigin.ppf via searchsorted | search characterisation |
| C20 | SamplingOrigin.cdf | refuted at the first grid point (index -1 wraps) |
| C21 | searchsorted sampling / ppf of TrackGenerator | search characterisation |
| C22 | stream key seed+stream, jumpahead | injectivity within a run; collision across seeds refuted |
| C23 | generator state threading in run / generateTracks | state passing model; refuted because of the process-wide numpy generator |
| C24 | filters of generateTracks | predicate extraction |
| C25 | _singleTrack loop skeleton with oracle steps | induction over steps |
| C26 | initEnvPressure handling in the loop | refuted with two tracks |
| C27 | LandfallDecay | induction over land/sea history; exp over R |
| C28 | readMultipleTrackData | refuted for id 0; proved for ids >= 1 |
| C29 | getInitialPositions, TCID | induction |
| C30 | getTimeElapsed, getTimeDelta | induction |
| C31 | _bearingRate | order reasoning |
| C32 | filterPressure | case analysis |
| C33 | CalcTrackDomain.calc | induction; refutation for positions after the last in-domain one |
| C34 | CalcFrequency.calc | counting |
| C35 | LineLine | field arithmetic over Q |
| C36 | LinePolygon | refuted |
| C37 | crossing and winding numbers | refuted for winding; bounding box facts |
| C38 | CircleLine over R | quadratic discriminant |
| C39 | DynamicRecArray | refinement to list |
| C40 | processed-file ledger | refinement to a finite map; refutation for '\|' |
| C41 | config parser | history refinement |
| C42 | parseList/formatList/parseBool | string lemmas; refutation for separators |
| C43 | disableOnWorkers | case analysis over ranks |
| C44 | barrier sequences of main | trace equality; failure case refuted |
| C45 | find_index/find_nearest | argmin |
| C46 | bearing2theta/theta2bearing | modular arithmetic over Q in units of pi |
| C47 | convert | field arithmetic; refuted for unknown units |
| C48 | humidity | field arithmetic over Q / R |
| C49 | samlmu, samlmu3 | sums over Q |
| C50 | return level formulas | monotonicity over R |
| C51 | guards of the fits | case analysis |
| C52 | holland pressure profile | exp monotonicity over R |
| C53 | cubic core | field |
| C54 | vmax/pDiff | sqrt/power over R |
| C55 | Timeseries shutdown | argmax induction |
| C56 | DataSet download | crash model; refuted |
| C57 | setGridLimit | refuted for second track; proved for the first |
| C58 | windows of regionalExtremes and makeGrid | integer division |
| C59 | calculateCI blocks | refuted (float shape) |
| C60 | grdSave/grdRead/SampleGrid | list reversal |
| C61 | worker failure in the transition system of C01 | refuted: every execution ends with the master waiting |
| C62 | resume model of C09 with file contents | proved with a configured region; refuted without one |
| C63 | local_wind.tif name and multiplier step of the resume model | refuted |
| C64 | progress loop of run | refuted for one simulation |
| C65 | processEvent over arbitrary file names in the protocol of C11 | refuted |
| C66 | second processEvents on the tables of C11 | refuted |
| C67 | SQL joins of queries.py as nested loops | membership characterisation; refuted for locationPassage |
| C68 | generateTracks genesis pressure branch | case analysis; refuted for prescribed pressures |
| C69 | generateKDE, cdf tables | table lemmas; refuted for a periodic variable |
| C70 | allDistributions, per-cell file selection | induction over cells |
| C71 | KDEOrigin axes, SamplingOrigin.ppf, getCellNum | order reasoning |
| C72 | initial conditions of generateTracks | refuted for prescribed zeros |
| C73 | retry loop of generateTracks | refuted: no execution ends |
| C74 | selection of the size statistics | refuted |
| C75 | loadTrackFile splitting | refuted west of Greenwich and in the south |
| C76, C77 | _pressureRate, _rmaxRate | pointwise over lists; C77 refuted after a missing radius |
| C78, C79, C80 | extractTracks, processData, _speed | list partition |
| C81 | CalcFrequency against extractTracks | refuted at the domain edge |
| C82 | parseDates | refuted for 29 February |
| C83 | size deviate of generateTracks | state threading |
| C84, C86 | CirclePolygon, _cnPnPoly | geometry over Q and R |
| C85 | findCrossings of longitude lines | induction; refuted for steps on the line |
| C87 | Evaluate protocols as transition systems | reuse of C01; refuted with fewer files than workers |
| C88, C89 | spHumToRH, pelgev, pelgpa | field arithmetic, gamma function as parameter |
| C90 - C99 | windmodels.py, windmodels.f90, vmax.py, pressureProfile.py over R | derivatives, continuity, monotonicity |
| C100 - C105 | maputils.py, maputils.f90 over R | spherical trigonometry |
| C106 | dumpGustsFromTracks with the station callback, shutdown of every process | last writer; refuted |
| C107 | tsmultiply | convex combination; refuted |
| C108 | doDataDownload, loadDatasets | induction over data sets |
| C109 | SampleGrid with numpy's binary search | search characterisation on ascending and descending arrays; refuted |
| C110 | station minimum record | refuted (starting value never replaced above it) |
| C111 | direction of motion in the surface wind models | rotation equivariance over R; proved |
| C112 | times of interpolated tracks | arange with the last entry replaced: shape of the list; refuted for short and uneven tracks |
| C113 | interpolated values at and between records | bracketing lemmas of interp1d, cubic segments; proved |
| C114 | central pressures of interpolated tracks | branch analysis over first/last valid record; refuted at the end |
| C115 | speeds of interpolated tracks | by C112's steps; refuted for the last step |
| C116 | Akima interpolation | cubic segments with common derivatives; proved |
| C117 | compiled and interpreted Akima | same derivatives away from kinks; refuted |
| C118 | acf, calculate and the simulation step over the reals | bound of products by squares; expectation over finite outcome lists |
| C119 | as C118 with the logistic variate | refutations: offset, bearings, lower Darboux sum of the noise |
| C120 | circmean, circstd with atan2 of the wind model | resultant vector, rotation, tight sums of cosines |
| C121 | ncSaveTracks and ncReadTrackData over a file value | induction over the tracks, column by column equality |
| C122 | as C121 | refutations: units, repeated save, stale file, missing wind speed, fields by position |
| C123 | calculateStatistics, save, load with the cell numbering of C15 | loop invariant, reshape and index arithmetic |
| C124 | load and plotStatistics | refutations |
| C125 | julianDays, _juliandays, genesis date | case analysis on months, calendar round trip |
| C126 | same, _frequency | refutations |
| C127 | numpy.histogram with integer bins | double counting: each value in exactly one bin |
| C128 | gpdfit, gpdReturnLevel with shape zero | derivative of the exponential at zero gives the limit |
| C129 | TrackDensity.calculate, PressureDistribution.calculate and calcMinPressure | double counting over disjoint cells, order statistics of sorted lists |
| C130 | same, TrackDensity.historic | refutations |
| C131 | LandfallRates.processTracks with inLand and LineLine | counting by segment and gate; reversal as permutation; parity of crossings (GeomProofs3) for completeness |
| C132 | same | refutations |
| C133 | landfallIntensity categories, isLandfall, countCrossings | signs of the orientation determinant; filters |
| C134 | same, locationLandfallIntensity.isLandfall | refutations |
| C135 | interp3d, SamplePressure, ltmPressure | index arithmetic; spline as parameter |
| C136 | same | refutations |
| C137 | ncSaveGrid, ncGetDims, ncGetData | induction over dimensions and variables |
| C138 | same, ncCreateVar, ncGetTimes | refutations |
| C139 | processMultipliers.py calculateBearing | theorems over R |
| C140 | createRaster, main, combineDirections, extent, S3 paths | theorems |
| C141 | calcLocalWindfield, same | refutations |
| C142 | tracks2shp, shptools (ShapeModel) | induction over tracks and shapes |
| C143 | tracks2shp, shptools | refutations, universal where possible |
| C144 | smooth, plotMap (SmoothModel) | finite sums over R, reflection |
| C145 | plotMap, convolve | refutations |
| C146 | WriteFoliationCallback (WriterModel) | induction over time steps, rounding |
| C147 | same, regionalExtremes grid | refutations |
| C148 | real logarithms and rational grids, contour levels and graticules | case analysis of the spacings |
| C149 | same | refutations |
| C150 | KdeModel | wrapping, bandwidth, genesis density, ranges |
| C151 | same | refutations |
| C152 | AppModel | progress, timing, directories, event maps |
| C153 | same | refutations |
| C154 | HumidModel.v | inverse conversions, monotonicity, termination of the wet bulb search |
| C155 | same | refutations |
| C156 | VmaxModel.v | winds, extremes, ages, days and columns of observed cyclones |
| C157 | same | refutations |
| C158 | PlaceModel/PlaceProps | stations, return levels and track distances of the database |
| C159 | same | refutations |
| C160 | TextModel/TextProps | template files, archive of processed files |
| C161 | same | refutations |
| C162 | SizeModel/SizeProps | radius to maximum winds and its fit |
| C163 | same | refutations |
| C164 | FlowModel/FlowProps | files passed between the parts of a run |
| C165 | same | refutations |
| C166 | RiskModel/RiskProps | from wind field files to return level arrays |
| C167 | same | refutations |
| C168 | ProcModel/ProcProps | files of processed observations |
| C169 | same | refutations |
| C170 | VortModel/VortProps | finite differences, curl and vorticity |
| C171 | same | refutations |
| C172 | CurveModel/CurveProps | hazard curves, percentiles, regression figures |
| C173 | same | refutations |
| C174 | GradProps | balance of wind and pressure |
| C175 | same | refutations |
| C176 | EkmanProps | the boundary layer of the Kepert field |
| C177 | BarProps | scale bar: length, label, search ends |
| C178 | BarProps | scale bars that cannot be drawn |
| C179 | EnsProps | maps over simulations: cells, ranges, order |
| C180 | EnsProps | evaluation maps that are missing or have other units |
| C181 | EvdProps | power law return levels |
| C182 | EvdProps | power law levels: negative levels, ignored minimum, unusable objects |
| C183 | StepProps | the autoregressive steps of a generated cyclone |
| C184 | CoefProps | dumped cell statistics describe the sample of the cell |
| C185 | CoefProps | units of the bearing and pressure statistics (refuted) |
| C186 | UtmProps | UTM letters of the latitude bands |
| C187 | UtmProps | saving grids in UTM coordinates (refuted) |
| C188 | PstatProps | points of the lagged figures, angles, standardised values, differences within cyclones |
| C189 | PstatProps | labels, last record, correlation and cosine of the statistical figures (refuted) |
| C190 | StatxProps | circular statistics over a range, size distribution, genesis potential |
| C191 | StatxProps | circular standard deviation against the ordinary one (refuted) |
| C192 | ScaleProps | length of the scale bar, end of the searches, chosen length |
| C193 | ScaleProps | maps for which the searches do not end (refuted) |
| C194 | IniProps | options read through cnfGetIniValue |
| C195 | IniProps | documented errors, shadowed defaults, lists, evaluated text, other files (refuted) |
| C196 | PathProps | order, laziness and errors of the track loaders |
| C197 | PathProps | late TypeError, no distribution, stray files, wind copy (refuted) |
| C198 | NctxtProps | nc2txt: every value at its own place |
| C199 | NctxtProps | nc2txt on any grid: refuted |
| C200 | S3Props | multipliers and results in buckets, any interleaving of the threads |
| C201 | S3Props | failures of downloads and uploads: refuted |
| C202 | ExtentProps | extent of the local wind field |
| C203 | ExtentProps | invalid extents and other rasters: refuted |
| C204 | TmapProps | segments, colours and legend of track maps |
| C205 | TmapProps | drawing tracks with all winds: refuted |
| C206 | LowresProps | multipliers at the resolution of the gusts |
| C207 | EvalsProps | pressure statistics of evaluate.py |
| C208 | EvalsProps | ages of tracks (false) |
| C209 | LogProps | log files |
| C210 | LogProps | starting logs anew (false) |
| C211 | CollectProps | layers merged from exactly the asked tiles |
| C212 | CollectProps | incomplete folders, slashes, prefixes, silent failures (false) |
| C213 | DomainProps | points of the grid of a domain |
| C214 | DomainProps | coordinates and points of the grid of a domain (false) |

## Disagreements between the code and the property texts

Each has a theorem with a concrete witness or a universal statement of what the code does instead.

<!-- disagreements -->

* **C08** Combining several tracks of one file keeps the wind components of the strongest track. Gust maximum and pressure minimum proved. Violated: components and bearing always stay those of the first track. (`c08_components_of_first_track_refuted`, `c08_refuted`)
* **C09** Interrupted wind field runs can be resumed. Proved with a crash at any point when every variable written before the crash carries data. Violated: a file whose variables were all created but not all filled counts as complete. (`c09_refuted`)
* **C13** Threaded multiplier processing gives the unsegmented result under every thread schedule. Image and processing of each segment proved for every thread count and schedule; return of all workers proved for one thread. Violated for two or more: a worker can wait on the empty queue for ever. (`c13_hang_refuted`)
* **C15** Grid cell numbers identify grid cells. Proved for domains that do not straddle the equator or prime meridian. Violated otherwise: mirrored points share a number. (`c15_straddling_refuted`)
* **C17** Every observation in the domain is used by some cell. Proved for observations off the row boundaries. Violated on them: the window is open to the north, the numbering closed. (`c17_north_edge_refuted`)
* **C20** The origin distribution function starts at zero. Proved above the first grid point. Violated at and below it: index -1 reads the last entry, value 1. (`c20_refuted`)
* **C22** Random streams of different simulations never coincide. Within a run the keys seed+stream differ (c22_streams_partial). False for pairs: key = seed+stream, so simulation i+1 under seed s repeats simulation i under s+1. (`c22_requests_refuted`, `c22_next_seed_refuted`)
* **C23** Generated tracks do not depend on the number of processes. False: np.random (size variates) is seeded once per process, so a simulation depends on those run before it (c23_processes_refuted). Proved: tracks are determined by the two generator states; the first simulation of a process is the same for all process counts. (`c23_processes_refuted`)
* **C26** Initial conditions of one track do not influence later tracks. False unless prescribed: initEnvPressure is assigned in the loop (line 619) and kept for all later tracks. (`c26_leak_refuted`, `c26_witness_refuted`)
* **C27** Time over land counts consecutive land steps. LandfallDecay clock and pChange as stated (c27_clock, c27_pchange; exp only through its order properties). In _singleTrack the local tol is never reset, the rate can be negative, and the clock is not reset between storms (…_refuted). (`c27_second_landfall_refuted`, `c27_deepens_refuted`, `c27_carry_refuted`)
* **C28** Reading a multi-track file returns every track once. Proved for identifiers from 1 on. Refuted for identifier 0: those records are not returned. (`c28_number_zero_refuted`)
* **C29** Track initialisation flags partition the records into cyclones. Flags and grouping proved for serial number, number and season columns. Refuted for a user supplied index column with values other than 0/1 or not starting with 1. (`c29_index_column_refuted`)
* **C30** Elapsed time and time steps agree. Elapsed time is the time since the start record and, for whole hour steps, the sum of steps. Refuted: steps of start records, steps that are not whole hours, tracks split at a jump. (`c30_start_step_refuted`, `c30_rounded_steps_refuted`, `c30_split_track_refuted`)
* **C33** The automatically extended track domain covers the cyclones that enter the wind field domain. Contains the wind field domain, covers the positions up to the last one inside, and is tight to whole degrees. Refuted for the positions after the last one inside. (`c33_later_positions_refuted`)
* **C35** Segment intersection is exact. Proved for non-parallel segments and for parallel segments of positive length as a statement about lines. Refuted: Coincident is reported for collinear segments that do not overlap and for a zero-length segment anywhere. (`c35_coincident_refuted`, `c35_still_refuted`)
* **C36** A segment is reported to cross a polygon only if it crosses an edge. Refuted: every polygon with an edge is reported as crossed, because empty point lists are appended too. (`c36_status_refuted`, `c36_refuted`)
* **C37** Point-in-polygon tests agree. Proved: star-shaped counterclockwise polygons crossing the level once upwards; exact for counterclockwise rectangles. Refuted: the winding test is wrong for clockwise polygons and for edges running west below the point (the elif hangs on the wrong if). (`c37_above_refuted`, `c37_winding_refuted`)
* **C38** Circle and segment classification is exhaustive and correct. Proved for Outside, Inside, Intersection; Tangent describes the infinite line only. Refuted: Tangent for segments that do not reach the circle and for every zero-length segment. Over the reals (stdlib axioms). (`c38_tangent_refuted`, `c38_still_refuted`)
* **C40** The processed-file ledger remembers what was recorded. Recording and independence proved for all histories; reload proved for names without '|' and line ends; c40_bar_refuted shows a name with '|' makes the ledger unreadable. (`c40_bar_refuted`)
* **C41** Configuration values are read once and fall back to defaults. First read, defaults and later reads proved. Set/get proved after the first read for options without a formatter; a value set before the first read is lost and a string set for a list option is changed (c41_set_refuted). (`c41_set_refuted`)
* **C42** Boolean and list options survive formatting. Round trip proved exactly for non-empty lists without commas and refuted for all others; parseBool accepts exactly 'True' but getboolean accepts more, and one boolean option is never parsed by items. (`c42_items_refuted`, `c42_list_refuted`, `c42_bool_refuted`)
* **C44** All processes pass the same barriers. No-failure part proved for all action sets and process counts; the failure part is refuted: all other processes wait at a barrier. (`c44_one_failure_refuted`)
* **C45** Nearest grid index is nearest. Values within the range of the grid: any order. Outside: increasing grids only; refuted for decreasing grids, where the far end is returned. (`c45_descending_refuted`)
* **C47** Unit conversions are inverse pairs. Round trips hold to one part in a thousand because the factors are rounded; unsupported pairs are returned unchanged without a report (refuted). (`c47_sizes_refuted`, `c47_exact_refuted`, `c47_unsupported_refuted`)
* **C51** Hazard fits report missing values rather than bogus ones. GEV guards proved for sorted non-negative series and a non-positive missing value; the Pareto fit counts all records instead of positive ones, raises exactly for no records or more records than days, and cells without wind report zero (refuted). (`c51_gpd_raises_refuted`, `c51_no_wind_refuted`, `c51_gpd_few_refuted`)
* **C52** Surface pressure stays between central and environmental pressure. Range and monotonicity for holland, powell, schloemer, doubleHolland; refuted for willoughby, whose shape parameter can be negative (all four methods are reachable; the Willoughby method is not in the property's anchors but is the same claim). (`c52_willoughby_refuted`)
* **C54** Maximum wind and central pressure conversions are inverse. Inverse both ways for Willoughby and Holland; Atkinson is inverted for an environmental pressure of 1010 hPa only and refuted otherwise. (`c54_atkinson_refuted`)
* **C56** A downloaded data set is complete. Complete under the hypotheses listed; refuted for truncated streams, archives that cannot be unpacked (every zip archive) and interruptions while writing. (`c56_truncated_refuted`, `c56_unpack_refuted`, `c56_interrupted_refuted`)
* **C57** The wind field domain of a track encloses that track. First track proved. Violated: later tracks reuse the domain of the first. (`c57_later_track_refuted`)
* **C58** Local wind grids fit into the regional grid. Proved when the resolution in centidegrees divides twice the margin (and, with domain 'full', the extended width, with non-zero limits). Violated otherwise: numpy raises on the shape mismatch. (`c58_every_other_step_refuted`, `c58_refuted`, `c58_zero_limit_refuted`)
* **C59** Bootstrap blocks cover the shuffled record. Refuted: TypeError under Python 3; with integer division each block loses its last record. (`c59_crash_refuted`, `c59_short_refuted`)
* **C60** Grid files survive a write and read cycle. Holds for rows from north to south with one spacing and a new file; refuted for rows from south to north, two spacings and existing files. (`c60_emptied_refuted`, `c60_truncated_refuted`, `c60_south_to_north_refuted`, `c60_existing_refuted`, `c60_spacing_refuted`)
* **C61** A failing tile does not hang the hazard run. Violated: proved that the master then never returns, in every execution. (`c61_failure_hangs_refuted`, `c61_failure_hangs_any_buffering_refuted`)
* **C62** A resumed wind field run produces the same gust files. Proved for a configured region. Violated without one: the domain of the first track processed after the restart is used. (`c62_refuted`)
* **C63** Each track's local wind field is kept. Violated: one file name for all tracks, and a crash between saving the gust file and the multiplier step is never repaired. (`c63_refuted`)
* **C64** Track generation completes for every positive number of simulations. NumSimulations=1 divides by zero (line 1873). Proved for two or more given that each generateTracks call returns. (`c64_one_refuted`)
* **C65** Database loading copes with every file in the wind field directory. Violated: proved that one such file stops the load in every execution. (`c65_refuted`)
* **C66** Loading the same results twice leaves the database unchanged. Violated: event rows kept, wind rows appended again. (`c66_refuted`)
* **C67** Location queries return the records of the queried location. Exceedance and passage-with-wind-speed queries proved. Violated by locationPassage: wind rows joined on the event only. (`c67_passage_refuted`)
* **C68** Genesis pressure is below the environmental pressure. Proved when some tabulated pressure is below the environmental pressure. Violated otherwise: index -1 selects the whole table. (`c68_genesis_refuted`)
* **C69** A distribution built from observations can be sampled. Proved for plain and angular data and for periods that the step divides. Violated for other steps: the slice starts before day 1. (`c69_period_refuted`)
* **C72** Prescribed initial conditions are used. Proved for non-zero values; zero is treated as absent. (`c72_zero_refuted`)
* **C73** Track generation from a prescribed genesis point returns. False: the while loop does not count the rejected attempt. (`c73_never_ends_refuted`)
* **C74** The observed eye radius distribution is used when present. False: `if not self.allCDFInitSize` on an array raises ValueError. (`c74_size_file_refuted`)
* **C75** Tracks are split where positions jump. Proved for steps east and north. Refuted for steps west and south and across the Greenwich meridian. (`c75_west_south_refuted`, `c75_greenwich_refuted`)
* **C77** Size change rates come from two observed radii of one cyclone. Refuted after a missing radius: the missing value code enters the difference. (`c77_after_missing_refuted`)
* **C81** The frequency counts the cyclones used for the statistics. Counted starts are extracted; refuted for a start on the edge of the domain. (`c81_edge_genesis_refuted`)
* **C82** Made up years keep the dates of a cyclone consistent. Year differences proved; refuted for 29 February of a cyclone that starts in January. (`c82_leap_day_refuted`)
* **C84** A circle is reported to cut a polygon exactly when it cuts an edge. Proved for arrays. Refuted for lists of parts: the last edge is never tested. Over the reals (stdlib axioms). (`c84_parts_refuted`)
* **C85** Longitude crossings are counted once in their direction. Proved for tracks with no vertex on the gate longitude, and segment by segment for all. Refuted: a track with a vertex on the gate is counted twice. (`c85_refuted`)
* **C87** Parallel track evaluation gives the serial result. Proved when there are at least as many files as workers (rows are a permutation of the serial rows, means equal); refuted otherwise. Percentiles follow from the permutation but are not modelled. (`c87_few_files_refuted`)
* **C88** Relative humidity from specific humidity agrees with that from vapour pressure. Refuted: for grams per kilogram the result is 1000 times too large. (`c88_units_refuted`)
* **C90** Every documented wind profile and boundary layer model can be run. Refuted: jelesnianski raises UnboundLocalError, doubleHolland KeyError; exact set of usable names proved. (`c90_which_refuted`, `c90_errors_refuted`, `c90_documented_refuted`)
* **C91** Wind and pressure of one storm use the same shape parameter. Proved for holland and schloemer; refuted for powell (nautical miles against kilometres) and for willoughby at every radius but one. (`c91_gap_refuted`, `c91_powell_refuted`, `c91_willoughby_refuted`)
* **C92** The gradient wind is continuous in the distance from the centre. Jelesnianski and Rankine proved; Holland refuted for every storm off the equator. (`c92_holland_refuted`)
* **C93** The wind of every storm weaker than its environment is computed. Exact condition for deficits of at least 0.5 Pa; refuted for weak storms. (`c93_refuted`)
* **C94** Relative vorticity is consistent with the wind profile. Holland inside proved; Holland outside is too large by 2|f|; Jelesnianski and Rankine refuted by witnesses. (`c94_jelesnianski_scale_refuted`, `c94_rankine_error_refuted`, `c94_outer_refuted`, `c94_jelesnianski_refuted`, `c94_rankine_refuted`)
* **C95** Storms in the two hemispheres are mirror images. Holland, Jelesnianski, Rankine profiles and Kepert and McConochie fields proved; Hubbert and DoubleHolland refuted. (`c95_hubbert_refuted`, `c95_double_refuted`)
* **C96** Compiled and interpreted wind fields agree. Velocity for shape parameter squared up to 12, vorticity and Kepert field up to 2, away from the equator; refuted at the equator and for shape parameter 4. (`c96_reversed_refuted`, `c96_equator_refuted`)
* **C98** No gradient wind exceeds the maximum wind or turns against the storm. Jelesnianski, Rankine, Holland outside proved; Holland inside refuted off the equator; cyclonic up to shape parameter 2 sqrt 3. (`c98_core_refuted`, `c98_reversed_refuted`)
* **C99** A stronger gradient wind never gives a weaker surface wind. Refuted by a small drop at 19.5 m/s; holds up to 0.01 m/s; never above the gradient wind proved. (`c99_order_refuted`)
* **C103** Distance and bearing between recorded positions are those of the sphere. Components and the distance along meridians proved; great circle distance and symmetry refuted (equirectangular formula with the cosine of the second latitude). (`c103_great_circle_refuted`, `c103_symmetric_refuted`)
* **C104** The strongest wind lies on the configured line of maximum wind. Refuted: the configured angle is converted to radians three times (70 degrees act as 0.0004 radians); the model alone has the strongest wind on the line it is given, up to the drop of C99. (`c104_line_refuted`)
* **C105** The coordinates of the local grid are those of its points. Agreement for margins of whole half steps with the grid on one side of zero; refuted otherwise. (`c105_refuted`, `c105_length_refuted`)
* **C106** Station series cover every track of a run. Proved for one fresh process; refuted for several processes (the last writer wins) and for resumed runs (completed tracks are skipped before sampling). (`c106_processes_refuted`, `c106_resume_refuted`)
* **C107** Local station gusts interpolate the site multipliers. Factor bounded by the neighbouring multipliers; refuted as an interpolation, the two weights are exchanged. (`c107_weights_refuted`)
* **C108** The download step leaves every listed data set in place. Presence proved; refuted for two data sets with one file name and for names listed with a space after the comma. (`c108_shared_file_refuted`, `c108_names_refuted`)
* **C109** Sampling a grid file returns the value of the nearest grid point. Refuted: mirrored rows for latitudes from south to north, first row or IndexError for latitudes from north to south, next instead of nearest column. (`c109_mirrored_refuted`, `c109_north_to_south_refuted`, `c109_nearest_refuted`)
* **C110** The lowest pressure listed for a station occurred at the station. Proved for stations inside every grid with short names. Refuted: the pressure of the grid corner stands in for a station outside the grid and may become its minimum; names are cut to 16 characters and equal names share a file. (`c110_lowest_pressure_refuted`, `c110_names_refuted`)
* **C112** Interpolated tracks have the requested times. Exact when the duration is a multiple of the time step; otherwise the last step is up to almost twice the time step, and a track shorter than the time step loses its start. (`c112_short_refuted`, `c112_last_step_refuted`)
* **C114** Central pressures of interpolated tracks. Outside and range proved; the last usable new time repeats the pressure before it; an IndexError if no new time lies between the first and last central pressure. Tracks of up to three records only in C113. (`c114_last_refuted`, `c114_error_refuted`)
* **C115** Speed of interpolated tracks. Holds for all but the last step, and for that too if the duration is a multiple of the time step. (`c115_last_refuted`)
* **C117** The two Akima versions are interchangeable. Agree unless the slopes around a data point are all but constant on both sides; at such a kink the derivatives differ; unsorted positions give wrong values in the extension, which also reads one entry behind the data. (`c117_kink_refuted`, `c117_unsorted_refuted`, `c117_reads_refuted`)
* **C119** The autoregression describes standardised anomalies. acf does not remove the mean: adding a constant to the observations changes even the sign of the coefficient, and positive observations never have a negative coefficient; the coefficient of bearings is computed from degrees on a line and depends on the zero direction; the logistic noise of scale 1 has a mean square above 1 (a lower sum of its integral exceeds 1), so the simulated anomalies are more variable than the standard deviation of the cell says. (`c119_offset_refuted`, `c119_noise_refuted`, `c119_bearing_refuted`)
* **C122** Track files can be written again, in other units and used for interpolation. The time units are recorded as hours since 1900 whatever units were used; saving replaces the dates of the tracks by numbers so that a second save fails; an empty list leaves the file of an earlier run in place; records are cast to the fields of the first track by position; tracks read from a file lack WindSpeed, which the interpolation reads. (`c122_units_refuted`, `c122_twice_refuted`, `c122_stale_refuted`, `c122_interpolate_refuted`, `c122_fields_refuted`)
* **C124** Statistics files are checked against the domain and plots show every cell. The domain is not recorded in the statistics file (the source has a TODO) and statistics of another domain with equally many cells are accepted; plotStatistics writes cell i to column i - 1 of one column too few, so the first cell is overwritten by the last, and a domain of one cell fails. (`c124_domain_refuted`, `c124_plot_refuted`, `c124_plot_one_refuted`)
* **C126** All years give the day of the calendar. Refuted: years before 1900 are treated as the leap year 1904 by julianDays but by the original year in _juliandays; 1900 and 2100 are divisible by four without being leap years; in simulated leap years days from 60 fall one day early; a record of a single year writes no annual numbers. (`c126_before1900_refuted`, `c126_century_refuted`, `c126_leap_refuted`, `c126_single_year_refuted`)
* **C128** Pareto fits with shape zero have return levels. Refuted: gpdfit rejects only positive shapes; with shape zero the level is infinity times zero, not a number, although the levels for shapes tending to zero converge to mu + scale ln(t npyr rate). (`c128_zero_shape_refuted`)
* **C130** Density and pressure maps cover the domain and the years. Refuted: a spacing that does not divide the domain leaves out the remainder; a spacing below 0.1 degree adds cells outside; positions on the upper edge have density but no pressure; the rate divides by last year minus first year (one too few, zero for one year); tracks that start outside the domain have no lowest pressure, and a simulation without any gives no numbers. (`c130_remainder_refuted`, `c130_fine_refuted`, `c130_upper_edge_refuted`, `c130_years_refuted`, `c130_minima_refuted`)
* **C132** Landfall rates count every landfall once at its gate. Refuted: the last gate is never counted; the gate between the first two vertices has entry 1 and entry 0 is always zero; a simulation without landfall has no rates and then the means over all simulations are not numbers; a landfall through a common vertex counts for both gates; for some clockwise coasts the move onto land is not recognised. (`c132_last_gate_refuted`, `c132_shift_refuted`, `c132_no_landfall_refuted`, `c132_vertex_refuted`, `c132_clockwise_refuted`)
* **C134** Landfall intensity tables hold all categories. Refuted: columns cat1 to cat5 hold categories 0 to 4 and category 5 is dropped; pressures above 1020 hPa have no category; the evaluation by area raises IndexError as soon as a segment crosses the area. (`c134_shift_refuted`, `c134_severe_refuted`, `c134_high_refuted`, `c134_area_refuted`)
* **C136** The climatological pressure joins up at Greenwich, the poles and the turn of the year. Refuted (with scipy's documented mode='wrap'): 360 degrees has the pressure of the second column and the strip east of the last column repeats the strip at Greenwich; with rows at both poles every row but the first is missed and the north pole has the pressure of the second row; 1 January and 31 December both have the pressure of the second record; the coordinates of the file are never read, so a file ordered from north to south gives the other hemisphere. (`c136_greenwich_refuted`, `c136_east_refuted`, `c136_poles_refuted`, `c136_days_refuted`, `c136_rows_refuted`)
* **C138** A failed save keeps the earlier file and documented arguments are accepted. Refuted: the file is opened for writing before the arguments are checked, so every failure leaves an unfinished file instead of the earlier one; gatts=None raises TypeError; the array returned is not masked; ncCreateVar raises ValueError for arrays of several values and leaves out a single zero; ncGetTimes raises UnboundLocalError for a file with another convention or without the dimension. (`c138_clobber_refuted`, `c138_gatts_refuted`, `c138_masked_refuted`, `c138_create_refuted`, `c138_times_refuted`)
* **C141** Local winds computed with the wind fields, layers without data and unusable extents. calcLocalWindfield passes ascending latitudes to processMult, which assumes the descending ones of the gust file: all rows but the northernmost have no data at their place and are found mirrored north of the domain, for every grid. Where the topographic layer has no data, combineDirections writes the terrain multiplier alone (the data behind the mask). Three of four configured bounds are ignored silently; a wind field west of the image gives xMin > xMax. '' and '/vsis3' raise IndexError. (`c141_local_refuted`, `c141_nodata_refuted`, `c141_bounds_refuted`, `c141_disjoint_refuted`, `c141_path_refuted`)
* **C143** Shapes keep their points and records when they are written. Refuted: one position is lost at every split, westward and second crossings are not cut, every part of a multi-part shape loses its last point, records are columns, the default format is not accepted, an empty track raises. (`c143_formats_refuted`, `c143_crossing_refuted`, `c143_westward_refuted`, `c143_second_crossing_refuted`, `c143_parts_refuted`, `c143_records_refuted`, `c143_default_refuted`, `c143_empty_refuted`)
* **C145** Smoothing works on coarse grids and keeps cells without data apart. Refuted: a spacing above one degree gives kernel size 0 and NaN everywhere; the fill value behind the mask changes every smoothed value in reach; getKernel tests the built-in dir and raises for every direction. (`c145_coarse_refuted`, `c145_mask_refuted`, `c145_direction_refuted`)
* **C147** Wind fields can be recorded on every grid. Refuted: at 0.025 degrees no window of four points fits; a domain less than half a cell over whole cells lacks the last grid point; more than half a cell over, coordinates are stretched. (`c147_resolution_refuted`, `c147_remainder_refuted`, `c147_coordinates_refuted`)
* **C149** Every range of values, set of figures and map extent can be drawn. Refuted: levels raises IndexError whenever the values span at most 0.7 of the power of ten below the maximum (900-1000 hPa), fails for maxima that are not positive, returns arbitrarily many levels for large negative minima; no figures divides by zero, scale bars of maps narrower than 5 km recurse for ever. (`c149_narrow_refuted`, `c149_pressures_refuted`, `c149_negative_refuted`, `c149_many_refuted`, `c149_empty_refuted`)
* **C151** Bearings, genesis days and circular densities of any data. Refuted: angular data are not repeated across north (KDEParameters.py:139 only for periodic data); equal bearings make the bandwidth zero and the estimate raises; with a step of two days the table starts at day 0 and misses 365; generateGenesisDateCDF ignores its file and uses self.parameters; circularKDE starts from np.empty and divides by the grid length; KDEOrigin with given positions has no processPath to save to. (`c151_genesis_value_refuted`, `c151_bearing_refuted`, `c151_constant_refuted`, `c151_step_refuted`, `c151_genesis_refuted`, `c151_memory_refuted`, `c151_circular_refuted`, `c151_save_refuted`)
* **C153** Settings, parallel start and plots of any event. Refuted: config.get returns the text 'False', which counts as true; lastPercentage lags behind after a jump and every update from 99% on prints; doOutputDirectoryCreation of tcevent.py is not limited to the master and its test and makedirs can interleave; for a simulated track file tracks.00007.nc the map reads gust.00007.nc, never written, and for several cyclones or xml input gust.001-00001.nc is not written either; the Actions section is always present in the defaults, so the fallback to the Impact section is dead. (`c153_setting_refuted`, `c153_throttle_refuted`, `c153_race_refuted`, `c153_simulation_refuted`, `c153_events_refuted`, `c153_impact_refuted`, `c153_numbers_refuted`, `c153_sections_refuted`)
* **C155** Humidity conversions in the documented units and for dry air. Refuted: wetBulbToRH divides hPa by kPa (ten times too large, clipped at 100; its docstring example gives 6.7 where the code gives 67); rHToDewPoint(0, t) uses an unbound variable; strong depressions give no dew point; vapPrToDewPoint is documented in Kelvin but returns Celsius; vapour is documented in kPa but returns hPa; inHg and mmHg do not convert back; wetBulbGlobeTemp puts kPa into a formula for hPa, so that its result is too low. (`c155_globe_refuted`, `c155_wet_bulb_humidity_refuted`, `c155_dry_air_refuted`, `c155_documented_units_refuted`, `c155_mercury_refuted`)
* **C157** Tables in other units, without dates or with one record. Refuted: a record above the environment at 60 degrees gets a positive wind (both factors negative) and one with a deficit at 85 degrees none; penv and poci columns are not converted from Pa, so first records have no wind; 32 bit days turn 01:00 and 01:59 into 01:30; numpy raises ValueError for a missing column but parseDates catches KeyError only; genfromtxt squeezes a single line to a scalar on which numpy.diff fails. (`c157_sign_refuted`, `c157_pascals_refuted`, `c157_hour_refuted`, `c157_no_date_refuted`, `c157_one_record_refuted`)
* **C159** The database follows the domain, the station file and the earth. Every clause is refuted by a witness: longitudes are stored modulo 360 and compared with the domain as given (no station at all west of Greenwich, proved for every file); tblLocations is never cleared; an existing locations.db is used without looking at LocationFile; tblHazard has no key, so rows are repeated; the track file name is stored as a blob; the planar distance in degrees is more than twice the great-circle distance at latitude 60 and 100 times across Greenwich. (`c159_western_domain_refuted`, `c159_west_refuted`, `c159_smaller_domain_refuted`, `c159_location_file_refuted`, `c159_twice_refuted`, `c159_track_file_refuted`, `c159_high_latitude_refuted`, `c159_seam_refuted`)
* **C161** Any value can be filled in and any file archived. All clauses are refuted: values are substituted one after the other in dictionary order, so placeholders inside values are replaced or not depending on the order; backslashes in values are escapes of re.sub (an n becomes a line break, \d an error); {1} is a repetition with nothing to repeat; os.rename replaces an earlier file of the same name and minute; pArchiveTimestamp(False) only reads the flag; an empty archive directory means the current one; LOGGER.critcal does not exist. (`c161_keys_refuted`, `c161_same_name_refuted`, `c161_timestamp_refuted`, `c161_no_directory_refuted`, `c161_report_refuted`, `c161_nested_refuted`, `c161_backslash_refuted`, `c161_number_refuted`)
* **C163** The fitted radius law is the documented one. Refuted by two observations: the design matrix has no constant column, the returned list is (b, c, std) where rmax expects (a, b, c), and doubling the logarithms of the radii changes the slopes. (`c163_constant_refuted`, `c163_use_refuted`, `c163_units_refuted`)
* **C165** A run depends only on its own settings and input. All clauses refuted: formats other than text and an age column stop the input processing; one year of input breaks the plots (or shows the frequencies of an earlier run); a radius distribution without a radius column stops the statistics at the last step; an old radius distribution is used although switched off; wind fields already there are never computed anew, so a second run gives the hazard of the first tracks, with cyclones that no longer exist; old track files beyond the number of simulations get winds; no cyclone at all fails. (`c165_format_refuted`, `c165_age_refuted`, `c165_year_refuted`, `c165_radius_refuted`, `c165_leftover_refuted`, `c165_again_refuted`, `c165_kept_refuted`, `c165_fewer_refuted`, `c165_ghosts_refuted`, `c165_none_refuted`)
* **C167** Return levels use the wind fields of the run, on their own grid, as configured. Refuted: a foreign file stops GPD, power and emp, and every distribution if it is listed first (GEV ignores it otherwise); wind fields of simulations beyond the number set are left out by GEV and used by the others; wind fields of another grid of sufficient size are read by index as if on the grid of the first file; 'gev' is refused; the recorded 5 and 95 per cent are those used only if PercentileRange is 90. (`c167_foreign_refuted`, `c167_foreign_always_refuted`, `c167_beyond_refuted`, `c167_grid_refuted`, `c167_names_refuted`, `c167_percentiles_refuted`)
* **C169** Files of processed observations hold the observations as they are. Refuted: a record at 149.996 is counted in the cell that starts at 150; with one cyclone the files load with a dimension less and the statistics stop with an error; a cyclone with one record is among the origins used for the frequency but not a point of the genesis density; without a column of winds the file of winds holds uninitialised memory; winds coded -999 stay; rates below 0.005 are read as 0. (`c169_cell_refuted`, `c169_single_refuted`, `c169_genesis_refuted`, `c169_junk_refuted`, `c169_negative_refuted`, `c169_small_refuted`)
* **C171** Vorticity at the edges, across the date line and without missing values. False: one-sided differences at the edges (off by the spacing for a square), [359, 0, 1] is differenced as it stands so the vorticity has the wrong sign, the seam of a global grid is an edge, missing=None fails with TypeError, spherepack needs a package that is not a dependency, single rows and columns give missing values only. (`c171_square_refuted`, `c171_edge_refuted`, `c171_meridian_refuted`, `c171_seam_refuted`, `c171_none_refuted`, `c171_single_refuted`)
* **C173** Every mark of a hazard curve or regression figure means what its label says. False: days without events are dots of speed 0 whenever there are fewer records than years; dots stay in m/s; unit kmh is labelled km/h but not converted; a lower bound that is missing or not positive for the shortest interval hides the whole range; range and dots are cut at the top; places outside the grid take the edge; more records than days stops all later figures; lagged figures swap the labels and pair values across storms. (`c173_zeros_refuted`, `c173_zeros_always_refuted`, `c173_dot_units_refuted`, `c173_kmh_refuted`, `c173_range_refuted`, `c173_cut_refuted`, `c173_outside_refuted`, `c173_many_refuted`, `c173_labels_refuted`, `c173_storms_refuted`)
* **C175** The wind balances the pressure everywhere. At the radius of maximum winds the Coriolis force of the maximum wind is unbalanced; the southern double profile adds r|f| where it should subtract it, so its wind is too strong at every radius. (`c175_core_refuted`, `c175_double_refuted`)
* **C178** A scale bar can be drawn on every map. c178_far_refuted and c178_jump_refuted: the exponential search never ends when the length is beyond every distance on the map, and the bisection never ends when the distance jumps over it; c178_small_map_refuted: no default bar on maps under five kilometres; c178_zero_refuted: a length of zero counts as none; c178_unit_refuted: the default length is in kilometres whatever the unit. (`c178_far_refuted`, `c178_jump_refuted`, `c178_small_map_refuted`, `c178_zero_refuted`, `c178_unit_refuted`, `c178_undefined_refuted`)
* **C180** Evaluation maps exist for every run and have the units they state. False. Track density files need 41 simulations and genesis density files 3, because run draws samples with fixed numbers before saving (IndexError). A set of tracks with at most two starting points in the domain raises in KDEMultivariate. One exceptional simulation in thirty puts the mean above the upper value. The genesis density, with units of TCs per grid per year, ignores the years, and the crossing rates, in crossings per year, are shares (density=True): they do not change when every storm occurs twice, they sum to one, and crossings that all lie outside the gates give NaN. (`c180_mean_refuted`, `c180_few_simulations_refuted`, `c180_few_storms_refuted`, `c180_years_refuted`, `c180_crossings_refuted`, `c180_shares_refuted`, `c180_outside_refuted`)
* **C182** Power law levels are winds and respect the stated minimum of records. Disagreements: the least squares fit is not held to scale below location, so a perfect fit can give a level below -90 m/s at one year; minrecords is never read; more records than days in the simulated years raise ValueError; none of the distribution objects ever returns a level (GEV, GPD and EMP name unknown variables, POWER always returns missing values, calculate asks a tuple for its shape). (`c182_filled_refuted`, `c182_negative_refuted`, `c182_minimum_refuted`, `c182_days_refuted`, `c182_objects_refuted`)
* **C185** Statistics of the bearing are in the units the files state. Refuted. The mean and standard deviation of the bearing are computed from radians and never converted, the minimum is in degrees, and all are labelled degrees: c185_bearing_refuted shows the mean below the minimum for every sample of bearings beyond 2 pi. GenerateStats.save labels every parameter m/s (c185_pressure_refuted). (`c185_bearing_refuted`, `c185_pressure_refuted`)
* **C187** Grids can be saved in UTM coordinates. Refuted. Both conversions use the built-in type int where the longitude is meant and always raise TypeError, so saving always fails, after the file has been created (c187_save_refuted). c187_intended shows that the line is right if the longitude takes the place of the type, for longitudes from 180 degrees west on. (`c187_existing_refuted`, `c187_convert_refuted`, `c187_back_refuted`, `c187_save_refuted`)
* **C189** Every statistical figure of the input data shows what its label says. Partial: the minima are right for all cyclones as far as their records come before the last record of the file. Refuted: the loop leaves out the last record, so that the lowest pressure of the last cyclone, or a last cyclone of one record, is not seen; minima above 1015 hPa are outside the bins; pairs of pressures join the end of a cyclone with the start of the next; the differences of longitude at t are on the axis labelled t-1; a step west across Greenwich stays +358 or so; the correlation is always that of records 4 to 8 (the indices come from the tick labels), and fewer than 8 records raise IndexError; the bearing figure takes the cosine of half the degrees as if they were radians, so that distinct directions coincide. Also plotRegression reads a variable before it is set, and the text named r^2 shows r (not modelled). (`c189_last_refuted`, `c189_joined_refuted`, `c189_steps_refuted`, `c189_wrap_refuted`, `c189_correlation_refuted`, `c189_few_refuted`, `c189_bearing_refuted`, `c189_bins_refuted`)
* **C191** The circular standard deviation of samples close together is their standard deviation. Refuted: the function gives the square root of 1 - R, while the standard deviation is approached by the square root of 2 (1 - R) (or of -2 ln R). For two samples at a distance a on both sides of their mean the ordinary deviation is a and the value is sqrt 2 sin(a/2) < 3a/4, however small a is; simulated bearings scatter too little by a factor of about 0.71. (`c191_spread_refuted`)
* **C193** A scale bar is drawn for every map. Refuted: the doubling loop does not end if no point of the line is as far away as the length (distances on the earth are limited), the halving loop does not end if the line leaves the projection (NaN) before the length is reached, and for maps from 100 m to 4.75 km wide the choice of a length recurses through negative numbers without end (RecursionError), because the first character of numbers below 1 is 0. (`c193_far_refuted`, `c193_edge_refuted`, `c193_small_refuted`)
* **C195** The helper behaves as documented without a value, with any default and with any file. Refuted: without a default an option that is not set gives None and no exception; a default given in the call is not used where the built-in defaults of config.py set the option (LogLevel, FieldDelimiter); with a list, tuple or array as default the call gives None although the option is set; without a default a text that is a Python expression comes back evaluated (path=input as the builtin function) and errors other than NameError and SyntaxError end the call; the file of any call after the first one that read a file is ignored. (`c195_silent_refuted`, `c195_shadowed_refuted`, `c195_list_refuted`, `c195_evaluated_refuted`, `c195_other_file_refuted`)
* **C197** The loaders share the work between processes and report bad arguments. Refuted: the TypeError comes on iteration and not at the call; every process gets all tracks (only the copy in wind/__init__.py uses balanced); any entry whose name begins with 'tracks' that is not a NetCDF track file ends the iteration and loses the files after it; wind.loadTracksFromPath always raises TypeError because it calls a function of three arguments with one. (`c197_late_refuted`, `c197_every_process_refuted`, `c197_stray_refuted`, `c197_wind_refuted`)
* **C199** nc2txt keeps any NetCDF grid as it is. False: latitudes from north to south are turned over all the same, each value is read at the latitude of the other side (c199_descending_refuted); the reader's coordinates are half a cell off those of the data (c199_half_cell_refuted); the latitudes get the spacing of the longitudes (c199_spacing_refuted); a file that exists stops the tool, as file() is not in Python 3 (c199_again_refuted), so a repeated record value ends the run (c199_repeated_refuted); values below 0.005 become zero, as probabilities and rates are (c199_small_refuted). (`c199_own_refuted`, `c199_descending_refuted`, `c199_half_cell_refuted`, `c199_spacing_refuted`, `c199_again_refuted`, `c199_repeated_refuted`, `c199_small_refuted`)
* **C201** Failures of downloads and uploads are reported and leave nothing half done. False: a failed download ends its thread, the remaining files of the type are not fetched and the run goes on (c201_rest_refuted, c201_type_refuted); the gust file is fetched before the directory is made, so a temporary directory named in the settings or a local working directory that is not there ends the run (c201_order_refuted); an empty path and /vsis3 alone raise IndexError (c201_short_refuted); a path with a slash at the end is accepted as a file (c201_slash_refuted); a download of no files raises UnboundLocalError (c201_none_refuted); if a result is missing those before it are uploaded and those after it are not (c201_half_refuted). (`c201_rest_refuted`, `c201_type_refuted`, `c201_order_refuted`, `c201_short_refuted`, `c201_slash_refuted`, `c201_none_refuted`, `c201_half_refuted`)
* **C203** An invalid extent is noticed and any raster is handled. False: with one key missing the others are ignored (c203_partial_refuted); an extent the wrong way round passes (c203_inverted_refuted); fields apart from each other give an extent the wrong way round (c203_apart_refuted); a raster stored from south to north gives an extent without a point (c203_south_refuted) and a turned one leaves out its corners (c203_turned_refuted); the outer half of the outer gust cells is left out (c203_edge_refuted). (`c203_partial_refuted`, `c203_inverted_refuted`, `c203_apart_refuted`, `c203_south_refuted`, `c203_turned_refuted`, `c203_edge_refuted`)
* **C205** Tracks can be drawn with all their winds. False: createMap returns the axes, and calling them raises TypeError for every map with a track (c205_map_refuted); known winds below 17.5 m/s are labelled No data (c205_weak_refuted); the wind at the last position is not shown (c205_last_refuted), nor a track of one position (c205_single_refuted); without winds all segments are labelled No data (c205_default_refuted). (`c205_map_refuted`, `c205_weak_refuted`, `c205_last_refuted`, `c205_single_refuted`, `c205_default_refuted`)
* **C206** Multipliers are applied at the resolution of the gusts. Proved of lines 137-178 once the reduced multipliers are there; the program never gets so far, as line 32 raises AttributeError; also false for cells mixed with nodata, other grids and directories whose names contain gust. (`c206_never_refuted`, `c206_empty_refuted`, `c206_dir_refuted`, `c206_mixed_refuted`, `c206_where_refuted`, `c206_larger_refuted`)
* **C207** Evaluated pressures are those of all tracks. Holds for cells visited by one track, tracks numbered from 0 and readable files; false otherwise, and the constructor always raises AttributeError. (`c207_init_refuted`, `c207_two_refuted`, `c207_missing_refuted`, `c207_numbers_refuted`)
* **C208** The ages of tracks are counted. False: the evaluation of ages unpacks the list of tracks as if it were an array of 14 columns (ValueError unless there are exactly 14 tracks), the calculation itself uses floats as indices and raises for all records, and a track whose number is not one more than the one before is not seen as a new one. Proved: where numbers follow one another the first records are found; a file that cannot be read is reported. (`c208_ages_refuted`, `c208_historic_refuted`, `c208_synthetic_refuted`, `c208_starts_refuted`)
* **C210** A log can be started anew. False: a second call in the same process neither opens the second log nor changes the level, its first lines go to the first log. With a handler of another library no log is made at all; with two handlers a verbose log shows nothing on the screen. A name without an extension gets a dot at its end from the stamp. Two runs within a minute have the same stamped name, and a new log empties that of the first run. (`c210_second_refuted`, `c210_other_refuted`, `c210_verbose_refuted`, `c210_extension_refuted`, `c210_minute_refuted`)
* **C212** Collection of tiles recovers from incomplete folders and reports what it does not find. False: with the folder of the shielding missing and that of the terrain there, FileExistsError; with the shielding there and the terrain missing, FileNotFoundError during the copies. A raw directory without a slash at the end finds nothing, silently; a working directory without it misses the folders just made. A comma at the end of the list of tiles asks for all tiles, and a name asks for all names it is the start of. Failed translations and directions without files are not noticed. get_multipliers.py does not empty the folders and merges tiles of earlier runs. (`c212_exists_refuted`, `c212_missing_refuted`, `c212_slash_refuted`, `c212_comma_refuted`, `c212_prefix_refuted`, `c212_stale_refuted`, `c212_silent_refuted`)
* **C214** Coordinates of a whole domain are those of its points. False: with a width that is not a whole number of steps there is one coordinate more than points, beyond the margin; with limits or margins finer than thousandths of a degree the numbers are truncated differently (before and after the difference) and no coordinate may be that of a point; resolutions below a thousandth of a degree give a step of zero and ZeroDivisionError. (`c214_more_refuted`, `c214_other_refuted`, `c214_fine_refuted`)

<!-- /disagreements -->

Partial without a disagreement, that is, only part of the inputs is covered:

<!-- open -->



<!-- /open -->

## Parts of the code that are modelled

The header comment of each model; the comment of each definition cites file and lines.

<!-- models -->

* `AppModel.v`: Model of the code around the calculations: progress messages (Utilities/progressbar.py:18-93), the timing decorator (tcrm.py:61-79 and tcevent.py:42-59), the creation of the output directories (tcrm.py:143-174, tcevent.py:61-90), the choice of the plotted event (tcevent.py:110-170) and the impact calculation (impact/__init__.py:46-77). Numbers are exact rationals, times are in seconds. File system paths are lists of names; symbolic links and permissions are not modelled.
* `BarModel.v`: Model of the scale bar of a map, PlotInterface/scalebar.py:15-217: the length chosen, the search for the end of the bar and the place of its label. The transformation between the coordinates of the axes and of the Earth and the distance on the ellipsoid (cartopy) are a parameter [dist], [None] standing for NaN. Positions are pairs of reals. The arguments for colours and fonts are not modelled.
* `BarrierModel.v`: The sequence of barriers and actions of a run (tcrm.py main), executed by every rank of the communicator.
* `CalendarModel.v`: Days of the year: Utilities/loadData.py:579-619 (julianDays), DataProcess/DataProcess.py:783-838 (_frequency, _juliandays) and the date of a simulated genesis, TrackGenerator.py:555, 602-616. Dates are those of Python's [datetime] module, the Gregorian calendar carried on backwards.
* `CellModel.v`: Grid cells and the samples drawn from them: Utilities/stats.py:89-150, 233-240, StatInterface/GenerateDistributions.py:235-319, 336-366 and StatInterface/generateStats.py:251-383. Domain limits and cell sizes are whole degrees (integers, also when written as floats); positions are rationals.
* `CircleModel.v`: Circles against segments and polygons: Utilities/Intersections.py:165-213 (CircleLine), 215-249 (CirclePolygon), 251-262 (lerp). Simplification: coordinates are real numbers instead of floating point numbers, so that math.sqrt is the exact square root.
* `CoefModel.v`: The statistics of one cell and the variables that carry them in the files: StatInterface/generateStats.py:217-250 (calculate), 400-483 (save) and TrackGenerator/TrackGenerator.py:1258-1636 (dumpAllCellCoefficients). Numbers are reals; the sample of a cell (extractParameter) is an argument. The placing of the cells on the map is in StoreModel.v; here is one cell.
* `CollectModel.v`: Collecting the tiles of the wind multipliers: checkOutputFolders, copyTranslateMultipliers and mergeWindMultipliers, ProcessMultipliers/processMultipliers.py:194-276, and their older versions in Utilities/get_multipliers.py:106-197. (Multiplying the merged layers, combineDirections, is in RasterModel.) Simplifications: paths are the lists of their components, all relative to one directory; names and tiles contain no wild cards, blanks or slashes and do not start with a dot; whether gdal_translate succeeds is a parameter (its failure is not noticed by the program); gdal_merge.py succeeds if it is given files and else writes nothing; an exception is reported without the files written before it.
* `CurveModel.v`: Model of the figures of hazard curves (PlotInterface/AutoPlotHazard.py:48-75, 190-258 and PlotInterface/curves.py:336-430) and of the numbers behind the statistical figures (PlotInterface/figures.py:121-160, 207-330). Drawing itself is not modelled: a figure is the list of its points, its labels and its limits. Values are exact rationals, a masked value is [None].
* `DbModel.v`: Hazard database: database/__init__.py:306-482, 549-624, 667-690 and database/queries.py:30-200. Tables are lists of rows in insertion order. Text columns that no query reads, the creation time stamps and the file attributes are one opaque value ([info]).
* `DensityModel.v`: Maps of track density and central pressure: Evaluate/trackDensity.py:46-109, 122-154 and Evaluate/pressureDistribution.py:55-207. Simplifications: coordinates and pressures are exact rationals; the percentiles, the plots and the choice of random samples are not modelled.
* `DomainModel.v`: Coordinates of the points of makeGridDomain and of meshLatLonDomain along one axis (Utilities/maputils.py:533-569, 606-631), in thousandths of a degree over exact rationals. The distances and bearings computed for these points are those of gridLatLonDist and gridLatLonBear (SphereModel).
* `DownloadModel.v`: Downloading of input data sets: Utilities/datasets.py and tcrm.py doDataDownload.
* `EnsModel.v`: Maps of the evaluations over all simulations: Evaluate/genesisDensity.py:79-391, 397-483, Evaluate/trackDensity.py:110-118, 216-375 and Evaluate/longitudeCrossing.py:85-88, 143-172. The kernel density estimate of statsmodels is a parameter, numbers are rationals; plots are modelled only by the simulations they need. The results of the simulations are a list of matrices, the longitude being the first index.
* `EvalModel.v`: The master/worker loop of the track evaluations (Evaluate/trackDensity.py:157-212, genesisDensity.py:262-310, longitudeCrossing.py:225-280, pressureDistribution.py:240-316, landfallRates.py:195-262). It is the loop of MWModel.v except that the first loop over the workers indexes the list of track files without testing its length (trackDensity.py:171-175), so that it raises IndexError on rank 0 when there are fewer files than workers. Simplification: messages are taken to carry Python objects, as in MWModel.v. The evaluation modules call the buffer versions [Send]/[Recv] with Python objects, and landfallRates.py calls [comm.size()], pressureDistribution.py [comn.Send]; what these calls do is not modelled.
* `EvalsModel.v`: The evaluation of track sets in one module: Evaluate/evaluate.py:385-446 (the grid), 504-549 (pressures), 574-617 (simulations) and 1406-1461 (ages). Simplifications: coordinates and pressures are exact rationals; plots, percentiles and the NetCDF output are left out; reading a track file is a parameter, [None] stands for a TypeError, IOError or ValueError.
* `EvdModel.v`: The power law fit of hazard/evd.py:334-394 and the distribution classes of hazard/evd.py:44-255. scipy's [curve_fit] is a parameter; wind speeds and return periods are rationals, the fitted curve is over the reals. [np.arange(1, nobs + 1, 1)] has one entry more than the array of wind speeds when 365.25 times the number of years is not whole; that entry is not used.
* `ExtentModel.v`: The extent of the local wind field: computeOutputExtentIfInvalid (ProcessMultipliers/processMultipliers.py:506-551) and build_combined_multipliers_for_all_directions (317-345). Numbers are exact rationals; the log is left out.
* `ExtremesModel.v`: Regional wind extremes: wind/__init__.py:120-141, 212-330, 478-508 and Utilities/maputils.py:469-531. Exact rationals stand for floats.
* `FitModel.v`: Extreme value fits per grid cell: the guards of hazard/evd.py and hazard/GPD.py, the empirical curve, and the bootstrap blocks of hazard/__init__.py, over exact rationals. The fitting routines themselves ([pelgev], scipy's [genpareto.fit]) and the closed return level formulas are parameters here; FitRModel.v has the formulas over the reals.
* `FitRModel.v`: Return level formulas and the L-moment estimator of the extreme value distribution over the reals (hazard/evd.py, hazard/GPD.py, Utilities/lmomentFit.py).
* `FlowModel.v`: The files passed from one part of a run to the next: which files each part reads and writes, in what order, and what happens to files of earlier runs in the same output directory. The contents of a file are abstracted to the set of runs its data come from (and, for a track file, the number of its tracks). tcrm.py:235-258 (doDataProcessing), 262-343 (doDataPlotting), 346-395 (doStatistics), 177-203 (doTrackGeneration), 206-231 (doWindfieldCalculations), 398-422 (doHazard), 425-449 (doHazardPlotting), 501-580 (main). Simplifications: one process; the database, evaluation and download parts are left out; figures are not recorded.
* `GateModel.v`: Landfall rates and intensities at coastal gates: Evaluate/landfallRates.py:78-131, 140-163, Evaluate/landfallIntensity.py:80-182, Evaluate/locationLandfallIntensity.py:124-150. Simplifications: coordinates and pressures are exact rationals; percentiles, plots, files and the exchange between processes are not modelled (EvalModel describes that exchange); the tables are lists.
* `GenModel.v`: Synthetic track generation: TrackGenerator/TrackGenerator.py:440-721 (generateTracks), 851-1067 (_singleTrack), 1069-1183 (_stepPressureChange, _stepBearing, _stepSpeed), 1239-1256 (_notValidTrackStep), 1644-1676 (global generator), 1735-1896 (run); Utilities/loadData.py:666-723 (getPoci, scalar arguments); TrackGenerator/trackLandfall.py:73-92 (onLand); Utilities/tcrandom.py:32-40 (Random). Simplifications: numbers are rationals (no rounding to single precision); [None] stands for NaN; trigonometry, exp, the MSLP interpolation, the land mask and the random generators are parameters (record [world]); cell coefficients are functions of the cell number; logging is dropped.
* `GeomModel.v`: Plane geometry over exact rationals: Utilities/Intersections.py:30-44 (inLand), 47-77 (_cnPnPoly), 80-111 (_wnPnPoly), 114-132 (_isLeft), 264-303 (LineLine), 305-334 (LinePolygon); Evaluate/longitudeCrossing.py:102-160 (findCrossings, also in Evaluate/evaluate.py). Simplifications: coordinates are exact rationals instead of floating point numbers; the histograms of the crossing latitudes are not modelled, the lists they are made from are.
* `GridFileModel.v`: ASCII grid files and sampling of gridded data: Utilities/grid.py. Numbers are exact rationals; the UTM option of [grdSave] is in UtmModel.v; netCDF input of [grdRead] is not modelled.
* `HumidModel.v`: Vapour pressure, dew point, wet bulb and relative humidity conversions (Utilities/metutils.py), over the real numbers. Masked arrays and floating-point rounding are not modelled; temperatures of -237.3 degrees (a division by zero) are left out by the theorems.
* `IniModel.v`: Reading one option through the helper kept for the old configuration interface: cnfGetIniValue (Utilities/config.py:342-382) and the geteval of the parser (config.py:268-276), on top of the parser modelled in UtilModel.
* `InterpModel.v`: Interpolation of tracks to a regular time step: Evaluate/interpolateTracks.py:53-243 and the Akima interpolation of positions, Utilities/akima.py:78-170 and Utilities/akima.c:72-215. Numbers are exact rationals. Times are hours after the first record; their computation from the dates, the dates of the new records and the wind speeds, which are treated like the central pressures, are not modelled. scipy's smoothing-free cubic spline ([splrep], [splev]) is a parameter.
* `KdeModel.v`: Model of the kernel density estimates behind the sampled distributions: StatInterface/KDEParameters.py:71-227, StatInterface/KDEOrigin.py:66-194, StatInterface/circularKDE.py:24-50 and the helpers bandwidth, statMaxRange, statMinRange and probability of Utilities/stats.py. Numbers are exact reals (exact rationals for the ranges). The library statsmodels is modelled by its documented estimate, the mean of the scaled kernels; its own choice of the bandwidth is the parameter [libbw]. NaN, which the library returns where no observation is in reach and which the code replaces by 0, is the sum of no kernels.
* `LmomModel.v`: Sample L-moments (Utilities/lmomentFit.py) over exact rationals.
* `LoadModel.v`: Loading of best track data: Utilities/track.py:380-400 (readMultipleTrackData); Utilities/loadData.py:191-202 (getSpeedBearing masks), 286-365 (getInitialPositions), 426-470 (parseDates, missing year), 505-523 (getTimeDelta), 525-553 (getTimeElapsed), 726-753 (filterPressure), 794-966 (loadTrackFile); DataProcess/DataProcess.py:117-158 (extractTracks), 200-345 (processData), 420-760 (derived quantities); DataProcess/CalcTrackDomain.py:51-98; DataProcess/CalcFrequency.py:59-102. Simplifications: numbers are exact rationals; a column of the table is the list of its values; serial numbers (strings) are only compared for equality and are integers here; a date is the number of minutes since some epoch; files written and read back between modules are identity.
* `LogModel.v`: Log files: flStartLog, Utilities/files.py:200-263, with what it uses of the standard library: basicConfig, the handlers of the root logger and their levels. Simplifications: a message is one line of a file or of the screen, without its time; links in paths are not followed; a level that is not one of the six names is an AttributeError (the name of another attribute of the module would be a TypeError, after the file has been opened).
* `LowresModel.v`: Local wind fields at the resolution of the gusts: ProcessMultipliers/lowResProcessMultipliers.py:16-178. The sector table and the numbers of the bands (138-149) are those of processMultipliers.py and taken from MultModel. Reprojection by GDAL is a parameter; reading of the options and logging (70-116) are left out; the bearings (168-169), computed with arctan2, are given with the gust file ([None]: NaN).
* `MWModel.v`: Master/worker protocol used three times in the code: hazard/__init__.py:330-429 (HazardCalculator.dumpHazardFromTiles), database/__init__.py:351-428 (HazardDatabase.processEvents), database/__init__.py:549-624 (HazardDatabase.processTracks). The three copies differ only in what is sent ([T]), what a worker computes ([calc]) and what the master does with a result ([store]).
* `MWSyncModel.v`: The master/worker protocol of MWModel.v when a send may block. [comm.send] of mpi4py returns at once or only when the receiver has taken the message, as the MPI library decides for each message; here the scheduler decides.
* `MapModel.v`: Model of the numbers behind the maps: contour levels, colour map, graticule and arrangement of the figures (PlotInterface/maps.py), and the length of the scale bar (PlotInterface/scalebar.py). Drawing itself is not modelled.
* `MeshModel.v`: Coordinates of the points of makeGrid and of meshLatLon along one axis (Utilities/maputils.py:469-513, 575-610), in thousandths of a degree over exact rationals.
* `MslpModel.v`: The climatological sea level pressure at a day and position: Utilities/interp3d.py:20-69, TrackGenerator.py:168-202 (SamplePressure) and Utilities/loadData.py:622-664 (ltmPressure). Simplifications: numbers are exact rationals. scipy's spline evaluation inside the grid is the parameter [spl]; what [map_coordinates] does with indices outside the grid ([mode='wrap']) is modelled after its documentation: the last point of an axis coincides with the first. The conversion to hPa is left out.
* `MultModel.v`: Local wind fields from wind multipliers: ProcessMultipliers/processMultipliers.py:811-1107. Rasters are functions from (row, column). Reprojection, GDAL input and output and the float32 rounding of the stored values are not modelled; reading a band never fails.
* `NamesModel.v`: File names: wind/__init__.py:391-397, database/__init__.py:438-440, hazard/__init__.py:875-891. Strings are lists of characters; identifiers are natural numbers (track identifiers are counters, TrackGenerator.py:704, track.py:258).
* `NcModel.v`: Grids in netCDF files: Utilities/nctools.py:87-144 (ncGetDims, ncGetData), 166-199 (ncGetTimes), 201-253 (ncCreateDim, ncCreateVar) and 255-395 (ncSaveGrid). Simplifications: names are numbers and values exact rationals (least significant digits and single precision are not modelled); of attributes only their presence counts; the netCDF4 library keeps for each file its dimensions and variables, refuses a second dimension or variable of the same name and a variable on an unknown dimension, and extends an assigned array along axes of length one.
* `NctxtModel.v`: Conversion of a NetCDF file to ASCII grids: process of Utilities/nc2txt.py:53-101, with ncGetDims and ncGetData of Utilities/nctools.py:86-144. Numbers are exact rationals; the parsing of the command line is left out, except that the variable may be missing. Masked values come as the numbers stored under the mask (nctools.py:142: [np.array] of a masked array drops the mask).
* `NumModel.v`: Grid index search (Utilities/maputils.py) and unit and humidity conversions (Utilities/metutils.py), over exact rationals.
* `PathModel.v`: Loading the tracks of a directory: loadTracks, loadTracksFromFiles and loadTracksFromPath (Utilities/track.py:402-471, and the copies in Evaluate/genesisDensity.py:38-77 and wind/__init__.py:858-873).
* `PlaceModel.v`: Places and their hazard in the database: the list of stations (database/__init__.py:214-259, 692-819), return levels (486-547), two queries (database/queries.py:74-96, 202-230) and the distance of a track from a place (Utilities/track.py:138-160). Coordinates and speeds are exact rationals, distances real numbers. Text columns are one opaque value, time stamps are left out. Tables with an integer primary key are lists in the order of the keys.
* `ProcModel.v`: Files of observations for the statistics: DataProcess/DataProcess.py:357-420 (_lonLat), 519-557 (_pressure), 645-686 (_speedRate), 688-702 (_windSpeed), 704-738 (_rmax), written by Utilities/files.py:94-117 (flSaveFile), read by files.py:77-91 (flLoadFile) in StatInterface/GenerateDistributions.py:138-165 (allDistributions), with stats.py:233-240 (statRemoveNum). Exact rationals; 32 bit numbers, nan in the input and the log are not modelled. Bearings, speeds and pressure rates are in LoadModel, cells and their expansion in CellModel.
* `PstatModel.v`: The statistical figures of the input data: PlotInterface/plotStats.py:82-112 (scatterHistogram), 166-403, as tcrm.py:263-345 (doDataPlotting) calls them. Drawing is not modelled: a figure is the list of its points and its labels. Numbers are exact rationals, for trigonometric functions and square roots reals; a missing value is [maxsize].
* `RasterModel.v`: Wind multipliers, the rasters: ProcessMultipliers/processMultipliers.py: calculateBearing (723-741), createRaster (581-633), the calls of processMult (835-840), main (1213-1221), the call of processMult in wind/__init__.py (531-561, 738-770), combineDirections (278-315), computeOutputExtentIfInvalid (506-551), s3_path_segments_from_vsis3 (490-503). Coordinates are exact rationals, wind components real numbers; float32 storage and reprojection to the grid of the multipliers are not modelled.
* `RegModel.v`: Selection of the profile and field models by name (wind/__init__.py:143-210, wind/windmodels.py:1158-1222, PressureInterface/pressureProfile.py).
* `ResumeModel.v`: Interrupted wind field runs: wind/__init__.py:400-414 (gustFileComplete), 510-561 (dumpGustsFromTracks), 581-705 (saveGustToFile), 738-770 (calcLocalWindfield) and Utilities/nctools.py:255-395 (ncSaveGrid), 207-230 (ncCreateDim).
* `RiskModel.v`: From the directory of wind fields to the arrays of return levels: hazard/__init__.py:44-61 (setDomain), 264-328 (calculateHazard), 579-794 (calculateGEV and its three copies), 865-949 (aggregateWindFields, loadFilesFromPath, loadFile) and 977-1033 (run) on one process, with the tiles of TileModel. Wind speeds are integers in some small unit; the fits of hazard/evd.py are a parameter (FitModel, FitRModel, LmomModel have them).
* `S3Model.v`: Wind multipliers kept in S3 buckets: ProcessMultipliers/processMultipliers.py:347-503 and the beginning of main (1184-1206), with AsyncRun (Utilities/AsyncRun.py:34-56). Texts are lists of characters. A bucket is a table of objects; [dirs] are the local directories, written without a slash at the end. The creation of the client, the log and the time measurement are left out; every failed call of the client raises and every upload is accepted.
* `SampModel.v`: Tabulated distributions and inverse-transform sampling: Utilities/stats.py:44-86, StatInterface/SamplingOrigin.py:119-251, StatInterface/SamplingParameters.py:76-110, StatInterface/KDEParameters.py:71-163, StatInterface/GenerateDistributions.py:154-196, TrackGenerator/TrackGenerator.py:562-636, 1678-1686. Numbers are rationals; rounding is not modelled.
* `ScaleModel.v`: The scale bar of maps, PlotInterface/scalebar.py. Numbers are exact rationals; a point is the multiple of the direction by which it lies from the start of the bar; [dist] is the distance in metres of a point from the start ([None]: NaN, outside of the projection). A loop or recursion that does not end within [fuel] passes gives [None].
* `SeriesModel.v`: Statistics of the observed series that drive the simulated tracks: autocorrelation and autoregression coefficients (StatInterface/generateStats.py:27-41, 217-250), the noise of the simulated series (Utilities/tcrandom.py, TrackGenerator.py:1660-1664) and circular statistics (Utilities/stats.py:200-236). Numbers are reals. Complex numbers are pairs of real and imaginary part.
* `ShapeModel.v`: Model of the shape files written for tracks and of the shape file helpers: Utilities/tracks2shp.py and Utilities/shptools.py. A feature of a shape file is the list of its parts (a part is a list of vertices) together with its attribute record. The shape file library is not modelled: the lists below are what is handed to [sf.point] / [sf.line] / [w.poly] and [sf.record] / [w.record], in that order. Rounding of attributes to the declared field widths is not modelled.
* `SizeModel.v`: Radius to maximum winds (TrackGenerator/trackSize.py): the formula used for generated tracks and its fit to observations. Real arithmetic.
* `SmoothModel.v`: Model of the smoothing of hazard maps: Utilities/smooth.py, its use in PlotInterface/AutoPlotHazard.py:97-131, and the argument check of Utilities/convolve.py. Arrays are functions of a row and a column number together with their numbers of rows [h] and columns [w]. Values are exact reals. [scipy.signal.convolve2d] is modelled by its documented result for mode='same', boundary='symm' and a kernel with an odd number of rows and columns: the sum of kernel times reflected image, the image being reflected at its edges (the edge row is repeated), again and again if the kernel reaches further.
* `SphereModel.v`: Positions, distances and directions on the sphere over the reals (Utilities/maputils.py, Utilities/maputils.f90). Arrays are modelled at one entry.
* `SplitModel.v`: Static division of work and the region filter: wind/__init__.py:713-731, 772-837, 876-886; TrackGenerator/TrackGenerator.py:1689-1699.
* `StationModel.v`: Station time series (Utilities/timeseries.py), their local adjustment (Utilities/tsmultipliers.py) and the runs that produce them (wind/__init__.py). Numbers are exact rationals; the wind bearing computed from the components is a parameter. The growable record arrays are lists (see UtilModel, C39).
* `StatxModel.v`: Further statistics: circular statistics over a range, Utilities/stats.py:200-231, the size distribution, stats.py:46-59 (cdf) and 187-196 (rMaxDist), and the genesis potential, Utilities/metutils.py:492-500. Numbers are reals.
* `StoreModel.v`: Files that carry tracks and cell statistics between the steps of a run: Utilities/track.py:209-335 (ncReadTrackData, ncSaveTracks), the requirement of Evaluate/interpolateTracks.py:104-200 on the fields of a track, and StatInterface/generateStats.py:149-245 (calculateStatistics, plotStatistics), 384-483 (load, save). A netCDF file is the value last written to it. Numbers are rationals; the storage as 32 bit floats and the masking of fill values are not modelled. Dates are whole seconds of the calendar of the file.
* `TextModel.v`: Template files (Utilities/template.py:13-48), archiving of processed files (Utilities/process.py:190-311) and the paths it uses (os.path of the Python library). Text is a list of characters; a file is a list of lines, each with its end. The clock, the file system's permissions and strftime are parameters.
* `TileModel.v`: Hazard tiles and the output arrays: hazard/__init__.py:81-194, 352-429, 952-974.
* `TmapModel.v`: Maps of tracks: makeSegments, colorline and subplot of PlotInterface/tracks.py:26-108, createMap of PlotInterface/maps.py:250-261. The library: BoundaryNorm gives the number of the interval a value is in, -1 below and the number of intervals at or above the last bound; ListedColormap takes the first and the last colour for those two and draws nothing for NaN; LineCollection gives segment [i] the colour of value [i].
* `UtilModel.v`: Utilities: growable record array (Utilities/dynarray.py), processed-file ledger (Utilities/process.py), configuration (Utilities/config.py) and the master-only decorator (Utilities/parallel.py).
* `UtmModel.v`: Conversion to and from UTM coordinates: Utilities/lat_long_UTM_conversion.py:75-282, and the option [coords='UTM'] of grdSave, Utilities/grid.py:79-83. Numbers are exact rationals. Only the operations up to the first exception are modelled: both conversions use the name [int], which is the built-in type, where the longitude is meant, so that nothing after these lines is ever reached.
* `VmaxModel.v`: Reading tables of observed cyclones, second part (Utilities/loadData.py, Utilities/columns.py): estimated maximum winds, extremes of a track, ages, days and columns. Winds are over the real numbers; 32 bit numbers are modelled for the days only.
* `VortModel.v`: Vorticity of a wind field on a grid (Utilities/vorticity.py). Numbers are exact reals. A masked array is a list of options, [None] being a missing value: the code marks it by a number (1e+20) and masks the values close to it, so a value that happens to be close to 1e+20 is not distinguished from a missing one there.
* `WindModel.v`: Radial wind and pressure profiles and the surface wind models over the reals (wind/vmax.py, wind/windmodels.py, wind/windmodels.f90, PressureInterface/pressureProfile.py). Arrays are modelled at one grid point; pressures are in Pa unless stated, radii in metres for the wind models and in kilometres for the pressure profile as in the code.
* `WriterModel.v`: Model of the wind field evolution files: WriteFoliationCallback of wind/writer.py, called from regionalExtremes (wind/__init__.py:310-314) with the window [lonGrid[imin:imax] / 100.], [latGrid[jmin:jmax] / 100.]. Coordinates are exact rationals (the file stores them as f4). One data variable stands for the four (gust_speed, velocity_east, velocity_north, pressure), which are written in the same way; None is the fill value.

<!-- /models -->

## Parts of the code that are not modelled

* Drawing (`PlotInterface`, `Evaluate/plot*`, `Utilities/plot*`) beyond the numbers of the maps, the
  hazard curves and the scale bar (MapModel, CurveModel, BarModel), documentation, installation
  scripts, the graphical configuration editor and the example scripts.
* Shape files (`Utilities/shptools.py`, `Utilities/lat_long_UTM_conversion.py`), GDAL input
  and output, the netCDF4 library (beyond the bookkeeping of NcModel), SQL text, log output and progress bars; their effects appear as parameters where a
  property needs them.
* Least squares, maximum likelihood and kernel density routines of scipy, statsmodels and the
  compiled KDE module. The gamma function, `arctan2` beyond its defining equations, and the random
  number generators are parameters.
* `Evaluate`: the master/worker skeletons are modelled with message payloads as values. The
  calls `comm.Send`/`comm.Recv` with Python objects, `comm.size()` in `landfallRates.py`,
  `comn.Send` in `pressureDistribution.py` and `status=None` would raise before any message is
  exchanged; C87 describes the protocol as intended.
* `Utilities/maputils.py:dist2GC` (swaps its arguments and subtracts a tuple) and the distribution
  classes of `hazard/evd.py` that no caller uses.
* IEEE rounding, overflow, single precision storage, memory limits and operating system errors
  other than those named in a model.

## Axioms per theorem

<!-- axioms -->
978 property theorems; 746 of them are closed under the global context.

Using `ClassicalDedekindReals.sig_forall_dec`:

`c118_symmetric`.

Using `ClassicalDedekindReals.sig_forall_dec`, `FunctionalExtensionality.functional_extensionality_dep`:

`c118_lags`, `c119_bearing_refuted`, `c119_offset_refuted`, `c119_positive`, `c148_colours`, `c151_circular_refuted`, `c151_memory_refuted`, `c170_bounds`, `c170_gradient`, `c170_linear`, `c170_missing`, `c170_reverse`, `c170_rotation`, `c170_sum`, `c171_edge_refuted`, `c171_single_refuted`, `c171_square_refuted`, `c174_powell`, `c178_undefined_refuted`, `c52_split`, `c53_core`, `c89_gpd`, `c94_jelesnianski_refuted`, `c94_jelesnianski_scale_refuted`.

Using `ClassicalDedekindReals.sig_forall_dec`, `ClassicalDedekindReals.sig_not_dec`, `FunctionalExtensionality.functional_extensionality_dep`:

`c104_model_partial`, `c118_bounded`, `c118_scale`, `c118_stationary`, `c144_linear`, `c144_mirror`, `c144_range`, `c144_total`, `c145_coarse_refuted`, `c158_distance`, `c158_on_track`, `c170_earth`, `c170_hemispheres`, `c170_poles`, `c170_rest`, `c170_shift`, `c171_meridian_refuted`, `c171_seam_refuted`, `c176_motion`, `c188_standard`, `c190_potential`, `c38_statuses_partial`, `c38_still_refuted`, `c38_tangent_refuted`, `c46_direction`, `c46_identity`, `c46_inverse`, `c46_range`, `c84_array_partial`, `c84_parts_refuted`, `c95_hubbert_refuted`, `c99_order_partial`, `c99_order_refuted`, `c99_weaker`.

Using `ClassicalDedekindReals.sig_forall_dec`, `ClassicalDedekindReals.sig_not_dec`, `Classical_Prop.classic`, `FunctionalExtensionality.functional_extensionality_dep`:

`c100_agree`, `c100_metric`, `c100_quarter`, `c100_zero`, `c101_bearing`, `c101_move`, `c101_reach`, `c101_track`, `c102_distance`, `c102_positive`, `c102_theta`, `c103_components_partial`, `c103_great_circle_refuted`, `c103_meridian_partial`, `c103_symmetric_refuted`, `c104_line_refuted`, `c111_calm`, `c111_opposite`, `c111_turns`, `c119_noise_refuted`, `c120_constant`, `c120_mean`, `c120_order`, `c120_spread`, `c120_turn`, `c120_unique`, `c128_zero_shape_refuted`, `c139_bearing`, `c139_components`, `c139_octant`, `c139_range`, `c144_kernel`, `c144_plot`, `c145_mask_refuted`, `c148_levels`, `c148_order`, `c149_many_refuted`, `c149_narrow_refuted`, `c149_negative_refuted`, `c149_pressures_refuted`, `c150_bandwidth`, `c150_bandwidth_32`, `c150_bandwidth_more`, `c150_exists`, `c150_nonnegative`, `c150_probability`, `c150_seam`, `c150_wrap`, `c151_bearing_refuted`, `c151_constant_refuted`, `c151_genesis_refuted`, `c151_genesis_value_refuted`, `c154_dew_point_humidity`, `c154_elevation`, `c154_globe`, `c154_humidity_dew_point`, `c154_round_trip`, `c154_saturation`, `c154_vapour`, `c154_wet_bulb`, `c154_wet_bulb_back`, `c154_wet_bulb_search`, `c155_documented_units_refuted`, `c155_dry_air_refuted`, `c155_globe_refuted`, `c155_mercury_refuted`, `c155_wet_bulb_humidity_refuted`, `c156_density`, `c156_factor_mirror`, `c156_positive`, `c156_records`, `c156_same_time`, `c156_sudden`, `c156_tracks`, `c156_zero`, `c157_pascals_refuted`, `c157_sign_refuted`, `c158_meridian`, `c159_high_latitude_refuted`, `c159_seam_refuted`, `c162_coefficients`, `c162_exact`, `c162_least`, `c162_rmax`, `c163_constant_refuted`, `c163_units_refuted`, `c163_use_refuted`, `c174_balance`, `c174_double`, `c174_speed`, `c174_willoughby`, `c175_core_refuted`, `c175_double_refuted`, `c176_layer`, `c177_default`, `c177_drawn`, `c177_label`, `c177_length`, `c177_refused`, `c178_far_refuted`, `c178_jump_refuted`, `c178_small_map_refuted`, `c178_unit_refuted`, `c178_zero_refuted`, `c181_increasing`, `c181_positive`, `c181_result`, `c182_days_refuted`, `c182_minimum_refuted`, `c182_negative_refuted`, `c184_autocorrelation`, `c184_autocorrelation_land`, `c184_describes`, `c185_bearing_refuted`, `c185_pressure_refuted`, `c189_bearing_refuted`, `c190_constant`, `c190_default`, `c190_density`, `c190_mean_range`, `c190_mode`, `c190_size`, `c190_units`, `c190_variance`, `c191_spread_refuted`, `c50_gev`, `c50_gpd`, `c50_inverse`, `c52_double_monotone`, `c52_double_range`, `c52_monotone`, `c52_range`, `c52_willoughby_refuted`, `c53_prescribed`, `c54_atkinson_partial`, `c54_atkinson_refuted`, `c54_inverse`, `c54_inverse_back`, `c54_reject`, `c54_units`, `c89_gev`, `c89_gumbel`, `c89_gumbel_skewness`, `c89_invalid`, `c89_newton_step`, `c89_skewness`, `c89_zero_shape`, `c91_gap_refuted`, `c91_given_partial`, `c91_powell_refuted`, `c91_willoughby_refuted`, `c92_gap`, `c92_holland_refuted`, `c92_others_partial`, `c93_exact`, `c93_refuted`, `c93_runs_partial`, `c94_core_partial`, `c94_outer_refuted`, `c94_rankine_error_refuted`, `c94_rankine_refuted`, `c95_double_refuted`, `c95_fields_partial`, `c95_profiles`, `c96_equator_refuted`, `c96_field_partial`, `c96_reversed_refuted`, `c96_velocity_partial`, `c97_still`, `c98_bounds_partial`, `c98_core_refuted`, `c98_cyclonic_partial`, `c98_reversed_refuted`.

<!-- /axioms -->

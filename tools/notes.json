{
 "C01": "Per-tile computation is a parameter that does not raise; the array write order, every interleaving, and every choice of buffered or blocking sends are modelled.",
 "C02": "Tiles partition the window; the window is the set of grid points within the configured limits.",
 "C03": "File contents are inputs; year index parsed from the file name.",
 "C07": "Local wind values are inputs of the model.",
 "C08": "Gust maximum and pressure minimum proved. Violated: components and bearing always stay those of the first track.",
 "C09": "Proved with a crash at any point when every variable written before the crash carries data. Violated: a file whose variables were all created but not all filled counts as complete.",
 "C101": "Real arithmetic; the single precision of the stored positions is not modelled.",
 "C102": "The interpreted minimum replaces exact zeros only, so the two differ by less than 1e-30 km between 0 and 1e-30 km; the compiled constant toRads is taken as pi/180 although it is a single precision literal.",
 "C103": "Components and the distance along meridians proved; great circle distance and symmetry refuted (equirectangular formula with the cosine of the second latitude).",
 "C104": "Refuted: the configured angle is converted to radians three times (70 degrees act as 0.0004 radians); the model alone has the strongest wind on the line it is given, up to the drop of C99.",
 "C105": "Agreement for margins of whole half steps with the grid on one side of zero; refuted otherwise.",
 "C106": "Proved for one fresh process; refuted for several processes (the last writer wins) and for resumed runs (completed tracks are skipped before sampling).",
 "C107": "Factor bounded by the neighbouring multipliers; refuted as an interpolation, the two weights are exchanged.",
 "C108": "Presence proved; refuted for two data sets with one file name and for names listed with a space after the comma.",
 "C109": "Refuted: mirrored rows for latitudes from south to north, first row or IndexError for latitudes from north to south, next instead of nearest column.",
 "C11": "Database errors other than duplicate keys are not modelled.",
 "C110": "Proved for stations inside every grid with short names. Refuted: the pressure of the grid corner stands in for a station outside the grid and may become its minimum; names are cut to 16 characters and equal names share a file.",
 "C112": "Exact when the duration is a multiple of the time step; otherwise the last step is up to almost twice the time step, and a track shorter than the time step loses its start.",
 "C113": "Proved for linear and both Akima versions; the cubic spline of scipy is a parameter and excluded.",
 "C114": "Outside and range proved; the last usable new time repeats the pressure before it; an IndexError if no new time lies between the first and last central pressure. Tracks of up to three records only in C113.",
 "C115": "Holds for all but the last step, and for that too if the duration is a multiple of the time step.",
 "C116": "Proved for both versions.",
 "C117": "Agree unless the slopes around a data point are all but constant on both sides; at such a kink the derivatives differ; unsorted positions give wrong values in the extension, which also reads one entry behind the data.",
 "C119": "acf does not remove the mean: adding a constant to the observations changes even the sign of the coefficient, and positive observations never have a negative coefficient; the coefficient of bearings is computed from degrees on a line and depends on the zero direction; the logistic noise of scale 1 has a mean square above 1 (a lower sum of its integral exceeds 1), so the simulated anomalies are more variable than the standard deviation of the cell says.",
 "C122": "The time units are recorded as hours since 1900 whatever units were used; saving replaces the dates of the tracks by numbers so that a second save fails; an empty list leaves the file of an earlier run in place; records are cast to the fields of the first track by position; tracks read from a file lack WindSpeed, which the interpolation reads.",
 "C124": "The domain is not recorded in the statistics file (the source has a TODO) and statistics of another domain with equally many cells are accepted; plotStatistics writes cell i to column i - 1 of one column too few, so the first cell is overwritten by the last, and a domain of one cell fails.",
 "C125": "Closed; datetime's calendar is modelled by month lengths.",
 "C126": "Refuted: years before 1900 are treated as the leap year 1904 by julianDays but by the original year in _juliandays; 1900 and 2100 are divisible by four without being leap years; in simulated leap years days from 60 fall one day early; a record of a single year writes no annual numbers.",
 "C127": "Closed.",
 "C128": "Refuted: gpdfit rejects only positive shapes; with shape zero the level is infinity times zero, not a number, although the levels for shapes tending to zero converge to mu + scale ln(t npyr rate).",
 "C129": "Exact arithmetic; percentiles and plots not modelled.",
 "C13": "Image and processing of each segment proved for every thread count and schedule; return of all workers proved for one thread. Violated for two or more: a worker can wait on the empty queue for ever.",
 "C130": "Refuted: a spacing that does not divide the domain leaves out the remainder; a spacing below 0.1 degree adds cells outside; positions on the upper edge have density but no pressure; the rate divides by last year minus first year (one too few, zero for one year); tracks that start outside the domain have no lowest pressure, and a simulation without any gives no numbers.",
 "C132": "Refuted: the last gate is never counted; the gate between the first two vertices has entry 1 and entry 0 is always zero; a simulation without landfall has no rates and then the means over all simulations are not numbers; a landfall through a common vertex counts for both gates; for some clockwise coasts the move onto land is not recognised.",
 "C134": "Refuted: columns cat1 to cat5 hold categories 0 to 4 and category 5 is dropped; pressures above 1020 hPa have no category; the evaluation by area raises IndexError as soon as a segment crosses the area.",
 "C136": "Refuted (with scipy's documented mode='wrap'): 360 degrees has the pressure of the second column and the strip east of the last column repeats the strip at Greenwich; with rows at both poles every row but the first is missed and the north pole has the pressure of the second row; 1 January and 31 December both have the pressure of the second record; the coordinates of the file are never read, so a file ordered from north to south gives the other hemisphere.",
 "C138": "Refuted: the file is opened for writing before the arguments are checked, so every failure leaves an unfinished file instead of the earlier one; gatts=None raises TypeError; the array returned is not masked; ncCreateVar raises ValueError for arrays of several values and leaves out a single zero; ncGetTimes raises UnboundLocalError for a file with another convention or without the dimension.",
 "C139": "Over real numbers; the calm wind (both components zero) has no direction and is covered by the range only. Signed zeros are not modelled.",
 "C14": "Combined file assumed to hold its bands in the alphabetical order of the code's direction list. Rounding of a bearing to 360.0 is not modelled.",
 "C140": "GDAL's rule (the pixel containing the position) is the model of reading a raster; reprojection to the grid of the multipliers is not modelled.",
 "C141": "calcLocalWindfield passes ascending latitudes to processMult, which assumes the descending ones of the gust file: all rows but the northernmost have no data at their place and are found mirrored north of the domain, for every grid. Where the topographic layer has no data, combineDirections writes the terrain multiplier alone (the data behind the mask). Three of four configured bounds are ignored silently; a wind field west of the image gives xMin > xMax. '' and '/vsis3' raise IndexError.",
 "C142": "Holds; the shape file library and the rounding of attributes to field widths are not modelled.",
 "C143": "Refuted: one position is lost at every split, westward and second crossings are not cut, every part of a multi-part shape loses its last point, records are columns, the default format is not accepted, an empty track raises.",
 "C144": "Holds; convolve2d is modelled by its documented result for odd kernels with symmetric boundary.",
 "C145": "Refuted: a spacing above one degree gives kernel size 0 and NaN everywhere; the fill value behind the mask changes every smoothed value in reach; getKernel tests the built-in dir and raises for every direction.",
 "C146": "Holds for domains of whole cells; coordinates exact (f4 rounding not modelled).",
 "C147": "Refuted: at 0.025 degrees no window of four points fits; a domain less than half a cell over whole cells lacks the last grid point; more than half a cell over, coordinates are stretched.",
 "C149": "Refuted: levels raises IndexError whenever the values span at most 0.7 of the power of ten below the maximum (900-1000 hPa), fails for maxima that are not positive, returns arbitrarily many levels for large negative minima; no figures divides by zero, scale bars of maps narrower than 5 km recurse for ever.",
 "C15": "Proved for domains that do not straddle the equator or prime meridian. Violated otherwise: mirrored points share a number.",
 "C151": "Refuted: angular data are not repeated across north (KDEParameters.py:139 only for periodic data); equal bearings make the bandwidth zero and the estimate raises; with a step of two days the table starts at day 0 and misses 365; generateGenesisDateCDF ignores its file and uses self.parameters; circularKDE starts from np.empty and divides by the grid length; KDEOrigin with given positions has no processPath to save to.",
 "C153": "Refuted: config.get returns the text 'False', which counts as true; lastPercentage lags behind after a jump and every update from 99% on prints; doOutputDirectoryCreation of tcevent.py is not limited to the master and its test and makedirs can interleave; for a simulated track file tracks.00007.nc the map reads gust.00007.nc, never written, and for several cyclones or xml input gust.001-00001.nc is not written either; the Actions section is always present in the defaults, so the fallback to the Impact section is dead.",
 "C154": "HumidModel.v; real arithmetic, psychrometer constants of the code; -237.3 C (division by zero) excluded; rounding of the wet bulb result to three decimals with ties upwards.",
 "C155": "Refuted: wetBulbToRH divides hPa by kPa (ten times too large, clipped at 100; its docstring example gives 6.7 where the code gives 67); rHToDewPoint(0, t) uses an unbound variable; strong depressions give no dew point; vapPrToDewPoint is documented in Kelvin but returns Celsius; vapour is documented in kPa but returns hPa; inHg and mmHg do not convert back; wetBulbGlobeTemp puts kPa into a formula for hPa, so that its result is too low.",
 "C156": "VmaxModel.v; winds over R (nan and infinity become 0 as in the code), 32 bit days modelled for years 1436 to 2871; distances of getSpeedBearing are inputs (modelled in SphereModel).",
 "C157": "Refuted: a record above the environment at 60 degrees gets a positive wind (both factors negative) and one with a deficit at 85 degrees none; penv and poci columns are not converted from Pa, so first records have no wind; 32 bit days turn 01:00 and 01:59 into 01:30; numpy raises ValueError for a missing column but parseDates catches KeyError only; genfromtxt squeezes a single line to a scalar on which numpy.diff fails.",
 "C159": "Every clause is refuted by a witness: longitudes are stored modulo 360 and compared with the domain as given (no station at all west of Greenwich, proved for every file); tblLocations is never cleared; an existing locations.db is used without looking at LocationFile; tblHazard has no key, so rows are repeated; the track file name is stored as a blob; the planar distance in degrees is more than twice the great-circle distance at latitude 60 and 100 times across Greenwich.",
 "C16": "Both extractParameter functions.",
 "C161": "All clauses are refuted: values are substituted one after the other in dictionary order, so placeholders inside values are replaced or not depending on the order; backslashes in values are escapes of re.sub (an n becomes a line break, \\d an error); {1} is a repetition with nothing to repeat; os.rename replaces an earlier file of the same name and minute; pArchiveTimestamp(False) only reads the flag; an empty archive directory means the current one; LOGGER.critcal does not exist.",
 "C163": "Refuted by two observations: the design matrix has no constant column, the returned list is (b, c, std) where rmax expects (a, b, c), and doubling the logarithms of the radii changes the slopes.",
 "C164": "Exact conditions for a complete run, independence of earlier files, parts run alone.",
 "C165": "All clauses refuted: formats other than text and an age column stop the input processing; one year of input breaks the plots (or shows the frequencies of an earlier run); a radius distribution without a radius column stops the statistics at the last step; an old radius distribution is used although switched off; wind fields already there are never computed anew, so a second run gives the hazard of the first tracks, with cyclones that no longer exist; old track files beyond the number of simulations get winds; no cyclone at all fails.",
 "C166": "Proved for any fit function that depends on the sorted values, as the four fit functions do (they sort their records).",
 "C167": "Refuted: a foreign file stops GPD, power and emp, and every distribution if it is listed first (GEV ignores it otherwise); wind fields of simulations beyond the number set are left out by GEV and used by the others; wind fields of another grid of sufficient size are read by index as if on the grid of the first file; 'gev' is refused; the recorded 5 and 95 per cent are those used only if PercentileRange is 90.",
 "C168": "Days are written as whole numbers and initial speeds with six decimals: the theorem holds for any rounding of the values.",
 "C169": "Refuted: a record at 149.996 is counted in the cell that starts at 150; with one cyclone the files load with a dimension less and the statistics stop with an error; a cyclone with one record is among the origins used for the frequency but not a point of the genesis density; without a column of winds the file of winds holds uninitialised memory; winds coded -999 stay; rates below 0.005 are read as 0.",
 "C17": "Proved for observations off the row boundaries. Violated on them: the window is open to the north, the numbering closed.",
 "C171": "False: one-sided differences at the edges (off by the spacing for a square), [359, 0, 1] is differenced as it stands so the vorticity has the wrong sign, the seam of a global grid is an edge, missing=None fails with TypeError, spherepack needs a package that is not a dependency, single rows and columns give missing values only.",
 "C172": "Drawing is not modelled; matplotlib's attribute color_cycle, gone from newer versions, is not modelled.",
 "C173": "False: days without events are dots of speed 0 whenever there are fewer records than years; dots stay in m/s; unit kmh is labelled km/h but not converted; a lower bound that is missing or not positive for the shortest interval hides the whole range; range and dots are cut at the top; places outside the grid take the edge; more records than days stops all later figures; lagged figures swap the labels and pair values across storms.",
 "C174": "The published balance is V^2/r + |f|V = (dp/dr)/rho; r above the radius of maximum winds for Holland, every r for the outer double profile with f > 0.",
 "C175": "At the radius of maximum winds the Coriolis force of the maximum wind is unbalanced; the southern double profile adds r|f| where it should subtract it, so its wind is too strong at every radius.",
 "C176": "Where (V/r)^2 equals the inertial stability exactly, the code divides by zero; that case is excluded. sqrt of negative numbers does not occur under the hypotheses.",
 "C178": "c178_far_refuted and c178_jump_refuted: the exponential search never ends when the length is beyond every distance on the map, and the bisection never ends when the distance jumps over it; c178_small_map_refuted: no default bar on maps under five kilometres; c178_zero_refuted: a length of zero counts as none; c178_unit_refuted: the default length is in kilometres whatever the unit.",
 "C179": "EnsModel models the statistics over simulations, the transposition on saving and the genesis density with the kernel density estimate as a parameter; exact rationals instead of floats.",
 "C18": "Exact arithmetic.",
 "C180": "False. Track density files need 41 simulations and genesis density files 3, because run draws samples with fixed numbers before saving (IndexError). A set of tracks with at most two starting points in the domain raises in KDEMultivariate. One exceptional simulation in thirty puts the mean above the upper value. The genesis density, with units of TCs per grid per year, ignores the years, and the crossing rates, in crossings per year, are shares (density=True): they do not change when every storm occurs twice, they sum to one, and crossings that all lie outside the gates give NaN.",
 "C182": "Disagreements: the least squares fit is not held to scale below location, so a perfect fit can give a level below -90 m/s at one year; minrecords is never read; more records than days in the simulated years raise ValueError; none of the distribution objects ever returns a level (GEV, GPD and EMP name unknown variables, POWER always returns missing values, calculate asks a tuple for its shape).",
 "C183": "The random numbers, the mask and the projection are parameters; the speeds after the first step and the bearing of a whole track are stated in c183_track, every state variable in c183_step and c183_memory.",
 "C184": "c184_describes, c184_autocorrelation and c184_saved hold for every sample that is not empty (of two or more values for the autocorrelation). Placement on the map is C123.",
 "C185": "Refuted. The mean and standard deviation of the bearing are computed from radians and never converted, the minimum is in degrees, and all are labelled degrees: c185_bearing_refuted shows the mean below the minimum for every sample of bearings beyond 2 pi. GenerateStats.save labels every parameter m/s (c185_pressure_refuted).",
 "C186": "c186_band and c186_outside hold for every rational latitude.",
 "C187": "Refuted. Both conversions use the built-in type int where the longitude is meant and always raise TypeError, so saving always fails, after the file has been created (c187_save_refuted). c187_intended shows that the line is right if the longitude takes the place of the type, for longitudes from 180 degrees west on.",
 "C189": "Partial: the minima are right for all cyclones as far as their records come before the last record of the file. Refuted: the loop leaves out the last record, so that the lowest pressure of the last cyclone, or a last cyclone of one record, is not seen; minima above 1015 hPa are outside the bins; pairs of pressures join the end of a cyclone with the start of the next; the differences of longitude at t are on the axis labelled t-1; a step west across Greenwich stays +358 or so; the correlation is always that of records 4 to 8 (the indices come from the tick labels), and fewer than 8 records raise IndexError; the bearing figure takes the cosine of half the degrees as if they were radians, so that distinct directions coincide. Also plotRegression reads a variable before it is set, and the text named r^2 shows r (not modelled).",
 "C19": "Random numbers in (0,1], as in the property. A draw of exactly 0 can raise IndexError (c19_zero_draw).",
 "C191": "Refuted: the function gives the square root of 1 - R, while the standard deviation is approached by the square root of 2 (1 - R) (or of -2 ln R). For two samples at a distance a on both sides of their mean the ordinary deviation is a and the value is sqrt 2 sin(a/2) < 3a/4, however small a is; simulated bearings scatter too little by a factor of about 0.71.",
 "C193": "Refuted: the doubling loop does not end if no point of the line is as far away as the length (distances on the earth are limited), the halving loop does not end if the line leaves the projection (NaN) before the length is reached, and for maps from 100 m to 4.75 km wide the choice of a length recurses through negative numbers without end (RecursionError), because the first character of numbers below 1 is 0.",
 "C195": "Refuted: without a default an option that is not set gives None and no exception; a default given in the call is not used where the built-in defaults of config.py set the option (LogLevel, FieldDelimiter); with a list, tuple or array as default the call gives None although the option is set; without a default a text that is a Python expression comes back evaluated (path=input as the builtin function) and errors other than NameError and SyntaxError end the call; the file of any call after the first one that read a file is ignored.",
 "C197": "Refuted: the TypeError comes on iteration and not at the call; every process gets all tracks (only the copy in wind/__init__.py uses balanced); any entry whose name begins with 'tracks' that is not a NetCDF track file ends the iteration and loses the files after it; wind.loadTracksFromPath always raises TypeError because it calls a function of three arguments with one.",
 "C199": "False: latitudes from north to south are turned over all the same, each value is read at the latitude of the other side (c199_descending_refuted); the reader's coordinates are half a cell off those of the data (c199_half_cell_refuted); the latitudes get the spacing of the longitudes (c199_spacing_refuted); a file that exists stops the tool, as file() is not in Python 3 (c199_again_refuted), so a repeated record value ends the run (c199_repeated_refuted); values below 0.005 become zero, as probabilities and rates are (c199_small_refuted).",
 "C20": "Proved above the first grid point. Violated at and below it: index -1 reads the last entry, value 1.",
 "C201": "False: a failed download ends its thread, the remaining files of the type are not fetched and the run goes on (c201_rest_refuted, c201_type_refuted); the gust file is fetched before the directory is made, so a temporary directory named in the settings or a local working directory that is not there ends the run (c201_order_refuted); an empty path and /vsis3 alone raise IndexError (c201_short_refuted); a path with a slash at the end is accepted as a file (c201_slash_refuted); a download of no files raises UnboundLocalError (c201_none_refuted); if a result is missing those before it are uploaded and those after it are not (c201_half_refuted).",
 "C203": "False: with one key missing the others are ignored (c203_partial_refuted); an extent the wrong way round passes (c203_inverted_refuted); fields apart from each other give an extent the wrong way round (c203_apart_refuted); a raster stored from south to north gives an extent without a point (c203_south_refuted) and a turned one leaves out its corners (c203_turned_refuted); the outer half of the outer gust cells is left out (c203_edge_refuted).",
 "C205": "False: createMap returns the axes, and calling them raises TypeError for every map with a track (c205_map_refuted); known winds below 17.5 m/s are labelled No data (c205_weak_refuted); the wind at the last position is not shown (c205_last_refuted), nor a track of one position (c205_single_refuted); without winds all segments are labelled No data (c205_default_refuted).",
 "C206": "Proved of lines 137-178 once the reduced multipliers are there; the program never gets so far, as line 32 raises AttributeError; also false for cells mixed with nodata, other grids and directories whose names contain gust.",
 "C207": "Holds for cells visited by one track, tracks numbered from 0 and readable files; false otherwise, and the constructor always raises AttributeError.",
 "C208": "False: the evaluation of ages unpacks the list of tracks as if it were an array of 14 columns (ValueError unless there are exactly 14 tracks), the calculation itself uses floats as indices and raises for all records, and a track whose number is not one more than the one before is not seen as a new one. Proved: where numbers follow one another the first records are found; a file that cannot be read is reported.",
 "C210": "False: a second call in the same process neither opens the second log nor changes the level, its first lines go to the first log. With a handler of another library no log is made at all; with two handlers a verbose log shows nothing on the screen. A name without an extension gets a dot at its end from the stamp. Two runs within a minute have the same stamped name, and a new log empties that of the first run.",
 "C212": "False: with the folder of the shielding missing and that of the terrain there, FileExistsError; with the shielding there and the terrain missing, FileNotFoundError during the copies. A raw directory without a slash at the end finds nothing, silently; a working directory without it misses the folders just made. A comma at the end of the list of tiles asks for all tiles, and a name asks for all names it is the start of. Failed translations and directions without files are not noticed. get_multipliers.py does not empty the folders and merges tiles of earlier runs.",
 "C214": "False: with a width that is not a whole number of steps there is one coordinate more than points, beyond the margin; with limits or margins finer than thousandths of a degree the numbers are truncated differently (before and after the difference) and no coordinate may be that of a point; resolutions below a thousandth of a degree give a step of zero and ZeroDivisionError.",
 "C22": "Within a run the keys seed+stream differ (c22_streams_partial). False for pairs: key = seed+stream, so simulation i+1 under seed s repeats simulation i under s+1.",
 "C23": "False: np.random (size variates) is seeded once per process, so a simulation depends on those run before it (c23_processes_refuted). Proved: tracks are determined by the two generator states; the first simulation of a process is the same for all process counts.",
 "C26": "False unless prescribed: initEnvPressure is assigned in the loop (line 619) and kept for all later tracks.",
 "C27": "LandfallDecay clock and pChange as stated (c27_clock, c27_pchange; exp only through its order properties). In _singleTrack the local tol is never reset, the rate can be negative, and the clock is not reset between storms (\u2026_refuted).",
 "C28": "Proved for identifiers from 1 on. Refuted for identifier 0: those records are not returned.",
 "C29": "Flags and grouping proved for serial number, number and season columns. Refuted for a user supplied index column with values other than 0/1 or not starting with 1.",
 "C30": "Elapsed time is the time since the start record and, for whole hour steps, the sum of steps. Refuted: steps of start records, steps that are not whole hours, tracks split at a jump.",
 "C33": "Contains the wind field domain, covers the positions up to the last one inside, and is tight to whole degrees. Refuted for the positions after the last one inside.",
 "C35": "Proved for non-parallel segments and for parallel segments of positive length as a statement about lines. Refuted: Coincident is reported for collinear segments that do not overlap and for a zero-length segment anywhere.",
 "C36": "Refuted: every polygon with an edge is reported as crossed, because empty point lists are appended too.",
 "C37": "Proved: star-shaped counterclockwise polygons crossing the level once upwards; exact for counterclockwise rectangles. Refuted: the winding test is wrong for clockwise polygons and for edges running west below the point (the elif hangs on the wrong if).",
 "C38": "Proved for Outside, Inside, Intersection; Tangent describes the infinite line only. Refuted: Tangent for segments that do not reach the circle and for every zero-length segment. Over the reals (stdlib axioms).",
 "C40": "Recording and independence proved for all histories; reload proved for names without '|' and line ends; c40_bar_refuted shows a name with '|' makes the ledger unreadable.",
 "C41": "First read, defaults and later reads proved. Set/get proved after the first read for options without a formatter; a value set before the first read is lost and a string set for a list option is changed (c41_set_refuted).",
 "C42": "Round trip proved exactly for non-empty lists without commas and refuted for all others; parseBool accepts exactly 'True' but getboolean accepts more, and one boolean option is never parsed by items.",
 "C44": "No-failure part proved for all action sets and process counts; the failure part is refuted: all other processes wait at a barrier.",
 "C45": "Values within the range of the grid: any order. Outside: increasing grids only; refuted for decreasing grids, where the far end is returned.",
 "C47": "Round trips hold to one part in a thousand because the factors are rounded; unsupported pairs are returned unchanged without a report (refuted).",
 "C48": "Humidity conversions over exact rationals.",
 "C49": "Both routines; floating-point rounding not modelled.",
 "C50": "GEV: positive scale and shape; C89 shows the estimated scale is positive. Pareto: shapes other than zero, see C128.",
 "C51": "GEV guards proved for sorted non-negative series and a non-positive missing value; the Pareto fit counts all records instead of positive ones, raises exactly for no records or more records than days, and cells without wind report zero (refuted).",
 "C52": "Range and monotonicity for holland, powell, schloemer, doubleHolland; refuted for willoughby, whose shape parameter can be negative (all four methods are reachable; the Willoughby method is not in the property's anchors but is the same claim).",
 "C54": "Inverse both ways for Willoughby and Holland; Atkinson is inverted for an environmental pressure of 1010 hPa only and refuted otherwise.",
 "C55": "Series and summaries as stated; see C110 for what the pressure minimum means.",
 "C56": "Complete under the hypotheses listed; refuted for truncated streams, archives that cannot be unpacked (every zip archive) and interruptions while writing.",
 "C57": "First track proved. Violated: later tracks reuse the domain of the first.",
 "C58": "Proved when the resolution in centidegrees divides twice the margin (and, with domain 'full', the extended width, with non-zero limits). Violated otherwise: numpy raises on the shape mismatch.",
 "C59": "Refuted: TypeError under Python 3; with integer division each block loses its last record.",
 "C60": "Holds for rows from north to south with one spacing and a new file; refuted for rows from south to north, two spacings and existing files.",
 "C61": "Violated: proved that the master then never returns, in every execution.",
 "C62": "Proved for a configured region. Violated without one: the domain of the first track processed after the restart is used.",
 "C63": "Violated: one file name for all tracks, and a crash between saving the gust file and the multiplier step is never repaired.",
 "C64": "NumSimulations=1 divides by zero (line 1873). Proved for two or more given that each generateTracks call returns.",
 "C65": "Violated: proved that one such file stops the load in every execution.",
 "C66": "Violated: event rows kept, wind rows appended again.",
 "C67": "Exceedance and passage-with-wind-speed queries proved. Violated by locationPassage: wind rows joined on the event only.",
 "C68": "Proved when some tabulated pressure is below the environmental pressure. Violated otherwise: index -1 selects the whole table.",
 "C69": "Proved for plain and angular data and for periods that the step divides. Violated for other steps: the slice starts before day 1.",
 "C72": "Proved for non-zero values; zero is treated as absent.",
 "C73": "False: the while loop does not count the rejected attempt.",
 "C74": "False: `if not self.allCDFInitSize` on an array raises ValueError.",
 "C75": "Proved for steps east and north. Refuted for steps west and south and across the Greenwich meridian.",
 "C77": "Refuted after a missing radius: the missing value code enters the difference.",
 "C81": "Counted starts are extracted; refuted for a start on the edge of the domain.",
 "C82": "Year differences proved; refuted for 29 February of a cyclone that starts in January.",
 "C84": "Proved for arrays. Refuted for lists of parts: the last edge is never tested. Over the reals (stdlib axioms).",
 "C85": "Proved for tracks with no vertex on the gate longitude, and segment by segment for all. Refuted: a track with a vertex on the gate is counted twice.",
 "C87": "Proved when there are at least as many files as workers (rows are a permutation of the serial rows, means equal); refuted otherwise. Percentiles follow from the permutation but are not modelled.",
 "C88": "Refuted: for grams per kilogram the result is 1000 times too large.",
 "C89": "Complete for every skewness a double can hold above -1 (at least -1 + 2^-53): the Newton iteration for skewness below -0.8 keeps the shape above 2.3, so scale is positive and both moments are reproduced. For skewness of at least -0.8 the third ratio is reproduced within 0.02 (c89_skewness; the true accuracy of the approximation is about 2e-7, which is not proved, nor is the third ratio after the Newton iteration). With shape zero the constants of the code are within 1e-8 of Euler's constant and ln 2. The gamma function is a parameter, positive on positive arguments.",
 "C90": "Refuted: jelesnianski raises UnboundLocalError, doubleHolland KeyError; exact set of usable names proved.",
 "C91": "Proved for holland and schloemer; refuted for powell (nautical miles against kilometres) and for willoughby at every radius but one.",
 "C92": "Jelesnianski and Rankine proved; Holland refuted for every storm off the equator.",
 "C93": "Exact condition for deficits of at least 0.5 Pa; refuted for weak storms.",
 "C94": "Holland inside proved; Holland outside is too large by 2|f|; Jelesnianski and Rankine refuted by witnesses.",
 "C95": "Holland, Jelesnianski, Rankine profiles and Kepert and McConochie fields proved; Hubbert and DoubleHolland refuted.",
 "C96": "Velocity for shape parameter squared up to 12, vorticity and Kepert field up to 2, away from the equator; refuted at the equator and for shape parameter 4.",
 "C98": "Jelesnianski, Rankine, Holland outside proved; Holland inside refuted off the equator; cyclonic up to shape parameter 2 sqrt 3.",
 "C99": "Refuted by a small drop at 19.5 m/s; holds up to 0.01 m/s; never above the gradient wind proved."
}
{"id": "C01", "title": "Parallel hazard calculation equals the serial one under every message schedule", "statement": "Running the hazard calculation on any number of MPI processes fills the output arrays (return levels, location, scale, shape and, when requested, upper/lower limits) with exactly the values the single-process run produces: each tile is computed exactly once and written at its own output position, the master terminates only after every tile is stored, and every worker process receives a stop message and returns. This holds whether there are more or fewer tiles than workers.", "quantifier": "every tile list (including empty), every number of processes >= 1, every interleaving of sends, receives and computations", "why_tests_cant": "A test runs one schedule on one process count; the order in which workers answer is chosen by the MPI runtime.", "anchors": ["hazard/__init__.py:HazardCalculator.dumpHazardFromTiles", "hazard/__init__.py:HazardCalculator.calculateHazard", "hazard/__init__.py:getTiles"]}
{"id": "C02", "title": "Hazard tiles partition the model domain", "statement": "The tiles handed out for a domain cover every grid index of the domain exactly once: no grid point is skipped, none is computed by two tiles, no tile reaches outside the domain, no tile is empty, and no tile exceeds the configured step in either direction.", "quantifier": "every domain index window and every positive tile step in x and y", "why_tests_cant": "Off-by-one errors appear only for particular remainders of extent modulo step.", "anchors": ["hazard/__init__.py:TileGrid.tileGrid", "hazard/__init__.py:TileGrid.getGridLimit", "hazard/__init__.py:getTileLimits"]}
{"id": "C03", "title": "Annual maxima aggregation keeps the yearly maximum at each grid point", "statement": "For each simulated year the aggregated field at a grid point is the largest gust over all event files of that year, and zero for a year with no files; the result does not depend on the order in which the file system lists the files.", "quantifier": "every set of event files, every listing order, every number of years", "why_tests_cant": "Listing order is file-system dependent, and tests use a handful of files.", "anchors": ["hazard/__init__.py:aggregateWindFields", "hazard/__init__.py:loadFile"]}
{"id": "C04", "title": "Static work division is a partition", "statement": "Dividing a list of items (track files, simulations, tracks) over the processes assigns every item to exactly one process, keeps each process' items in their original relative order, and gives any two processes item counts that differ by at most one.", "quantifier": "every list, every process count >= 1, every rank", "why_tests_cant": "Depends on list length modulo process count; a test samples a few pairs.", "anchors": ["wind/__init__.py:balanced", "TrackGenerator/TrackGenerator.py:balanced", "Utilities/track.py:balanced", "wind/__init__.py:loadTracksFromFiles"]}
{"id": "C05", "title": "Every track in the region gets its wind field from exactly one process", "statement": "When the wind field step runs on any number of processes over any list of track files, the sequence of tracks handled by all processes together is exactly the tracks passing the region filter, each handled by exactly one process (whether work is divided by file or, for a single file, by track).", "quantifier": "every list of track files with at least one file, every region (or none), every process count", "why_tests_cant": "The two division modes and the filter interact with file counts and process counts.", "anchors": ["wind/__init__.py:loadTracksFromFiles", "wind/__init__.py:filterTracks", "wind/__init__.py:inRegion", "wind/__init__.py:balanced"]}
{"id": "C06", "title": "The region filter keeps every track with a position in the region", "statement": "A track having at least one position inside the region (extended by the margin on all sides) is never discarded by the track filter, and a discarded track has no position there. A kept track need not have a position in the region: the filter compares bounding boxes.", "quantifier": "every track with at least one position, every region, every margin", "why_tests_cant": "Universal over geometry.", "anchors": ["wind/__init__.py:inRegion", "wind/__init__.py:filterTracks"]}
{"id": "C07", "title": "The regional wind swath is the per-point maximum over time with consistent components", "statement": "For every grid point, the gust returned for a track is the largest gust of all time steps that cover that point (zero if none exceeds zero), the bearing and the eastward/northward components are those of the earliest time step attaining that maximum, and the pressure is the minimum of the environmental pressure and the pressures of all covering time steps.", "quantifier": "every track, every sequence of local fields, every covering window", "why_tests_cant": "Depends on arbitrary sequences of fields and ties.", "anchors": ["wind/__init__.py:WindfieldAroundTrack.regionalExtremes"]}
{"id": "C08", "title": "Combining several tracks of one file keeps the wind components of the strongest track", "statement": "When the extremes of all tracks of one file are combined, each grid point's gust is the maximum over the tracks, the pressure the minimum, and the wind components are those of the track which produced the retained gust.", "quantifier": "every non-empty sequence of track results", "why_tests_cant": "Needs sequences where a later track is stronger; depends on evaluation order of the updates.", "anchors": ["wind/__init__.py:WindfieldGenerator.calculateExtremesFromTrackfile"]}
{"id": "C09", "title": "Interrupted wind field runs can be resumed", "statement": "After any number of wind field runs interrupted at any point, followed by one run that completes, every track of the region has a gust file holding that track's full wind speed, components and pressure; files recognised as complete are not written again.", "quantifier": "every list of tracks, every number of interrupted runs, every crash point inside a run", "why_tests_cant": "Crash points between individual file operations cannot be enumerated by tests.", "anchors": ["wind/__init__.py:WindfieldGenerator.dumpGustsFromTracks", "wind/__init__.py:WindfieldGenerator.gustFileComplete", "wind/__init__.py:WindfieldGenerator.saveGustToFile", "Utilities/nctools.py:ncSaveGrid"]}
{"id": "C10", "title": "Gust file names identify tracks", "statement": "Two tracks with different identifiers are written to different gust files, and the year and track number can be recovered from the file name.", "quantifier": "every pair of non-negative track identifiers", "why_tests_cant": "Padding widths overflow for large numbers; requires reasoning about all of them.", "anchors": ["wind/__init__.py:WindfieldGenerator.gustFilename", "database/__init__.py:HazardDatabase.processEvent", "hazard/__init__.py:aggregateWindFields"]}
{"id": "C11", "title": "Event and track tables do not depend on the message schedule", "statement": "Filling the event, wind speed and track tables on any number of processes inserts exactly the rows that the single-process run inserts (as a multiset), numbers every event by its position in the file list, processes each file exactly once, and releases every worker.", "quantifier": "every list of files, every process count >= 1, every interleaving", "why_tests_cant": "Message order is chosen by the runtime.", "anchors": ["database/__init__.py:HazardDatabase.processEvents", "database/__init__.py:HazardDatabase.processEvent", "database/__init__.py:HazardDatabase.processTracks", "database/__init__.py:HazardDatabase.insertEvents"]}
{"id": "C12", "title": "Multiplier processing touches every raster cell exactly once", "statement": "The raster segments queued for processing cover every cell of the wind raster exactly once, lie inside the raster, and their number equals the announced total.", "quantifier": "every raster size and every positive segment size", "why_tests_cant": "Depends on remainders of the raster size modulo the segment size.", "anchors": ["ProcessMultipliers/processMultipliers.py:processMultV2"]}
{"id": "C13", "title": "Threaded multiplier processing gives the unsegmented result under every thread schedule", "statement": "For any number of worker threads and any interleaving, each queued segment is processed exactly once, and when all workers have finished the output raster equals the result of the unsegmented algorithm. The workers always finish.", "quantifier": "every segment list, every thread count >= 1, every interleaving of queue checks, queue reads and segment computations", "why_tests_cant": "A thread race occurs only under rare interleavings.", "anchors": ["ProcessMultipliers/processMultipliers.py:processMultV2", "ProcessMultipliers/processMultipliers.py:call_process_multiplier_segment", "ProcessMultipliers/processMultipliers.py:processMultiplierSegment", "ProcessMultipliers/processMultipliers.py:processMult"]}
{"id": "C14", "title": "Every wind bearing selects exactly one multiplier direction, the nearest compass octant", "statement": "For every bearing in [0,360) exactly one of the direction sectors applies, it is the compass octant centred nearest to the bearing, and the band read from the combined multiplier file is the band holding that octant's multiplier.", "quantifier": "every bearing in [0,360)", "why_tests_cant": "Continuous input; sector edges.", "anchors": ["ProcessMultipliers/processMultipliers.py:processMultiplierSegment", "ProcessMultipliers/processMultipliers.py:processMult"]}
{"id": "C15", "title": "Grid cell numbers identify grid cells", "statement": "Two points of the domain receive the same cell number exactly when they lie in the same grid cell, every cell number is between 0 and the maximum cell number, and the longitude/latitude returned for a cell number is the north-west corner of that cell.", "quantifier": "every domain whose sides are whole multiples of the cell size, every pair of points inside it", "why_tests_cant": "Universal over domains (including those straddling the equator or the prime meridian).", "anchors": ["Utilities/stats.py:getCellNum", "Utilities/stats.py:getCellLonLat", "Utilities/stats.py:maxCellNum", "Utilities/stats.py:validCellNum"]}
{"id": "C16", "title": "Growing a cell to gather observations always stops", "statement": "Selecting the observations for a cell ends for every data set: it either returns a sample with more than the required number of values and at least two distinct values, taken from a rectangle inside the domain that contains the cell, or it reports that the domain is exhausted. The rectangle returned is the smallest in its growth sequence that qualifies.", "quantifier": "every observation list, every cell, every positive growth increment, every required sample size", "why_tests_cant": "Termination and minimality over all data.", "anchors": ["StatInterface/generateStats.py:GenerateStats.extractParameter", "StatInterface/GenerateDistributions.py:GenerateDistributions.extractParameter", "StatInterface/GenerateDistributions.py:GenerateDistributions._expandCell", "StatInterface/GenerateDistributions.py:GenerateDistributions._checkGridLimits"]}
{"id": "C17", "title": "Every observation in the domain is used by some cell", "statement": "Every observation whose position the cell numbering accepts as inside the domain is contained in the observation window of the cell whose number it is given.", "quantifier": "every domain, every observation position accepted by the cell numbering", "why_tests_cant": "Boundary conventions differ on edges of measure zero that a random test never hits.", "anchors": ["Utilities/stats.py:getCellNum", "StatInterface/generateStats.py:GenerateStats.extractParameter", "StatInterface/GenerateDistributions.py:GenerateDistributions.extractParameter"]}
{"id": "C18", "title": "Cumulative distributions are monotone and end at one", "statement": "The cumulative distribution computed from a density on a regular grid is non-decreasing, lies in [0,1] and ends exactly at 1 whenever the density is not identically zero; the two-dimensional version does the same along both axes.", "quantifier": "every grid step, every density", "why_tests_cant": "Universal over densities.", "anchors": ["Utilities/stats.py:cdf", "Utilities/stats.py:cdf2d"]}
{"id": "C19", "title": "Inverse-transform sampling never yields an impossible value", "statement": "Sampling an origin from the two-dimensional density with any pair of random numbers in (0,1] returns a grid point that exists and whose density is positive, and each grid point is returned exactly for the set of random numbers whose size equals its probability.", "quantifier": "every non-negative density with positive total, every pair of random numbers", "why_tests_cant": "Random tests do not hit the boundary values of the generator.", "anchors": ["StatInterface/SamplingOrigin.py:SamplingOrigin.ppf", "StatInterface/SamplingOrigin.py:SamplingOrigin._calculateCDF", "StatInterface/SamplingOrigin.py:SamplingOrigin.generateSamples"]}
{"id": "C20", "title": "The origin distribution function starts at zero", "statement": "The origin distribution function evaluated at a point is the probability mass strictly below it, so it is zero at and below the first grid point and non-decreasing in both coordinates.", "quantifier": "every density grid, every query point", "why_tests_cant": "Index arithmetic at the lower edge.", "anchors": ["StatInterface/SamplingOrigin.py:SamplingOrigin.cdf"]}
{"id": "C21", "title": "Sampled parameter values lie within the range of the distribution", "statement": "Drawing from a tabulated cumulative distribution with any random number in [0,1) returns a tabulated value, larger random numbers never give smaller values, and a value with zero probability is never returned for a positive random number.", "quantifier": "every tabulated distribution ending at 1, every random number", "why_tests_cant": "Universal over distributions.", "anchors": ["StatInterface/SamplingParameters.py:SamplingParameters.generateOneSample", "StatInterface/SamplingParameters.py:SamplingParameters.generateSamples", "TrackGenerator/TrackGenerator.py:ppf"]}
{"id": "C22", "title": "Random streams of different simulations never coincide", "statement": "Two simulations of one run draw from different random streams; and different (seed, stream) requests give different streams.", "quantifier": "every seed, every pair of distinct stream numbers, every number of simulations", "why_tests_cant": "Collisions are rare pairs in an infinite set.", "anchors": ["Utilities/tcrandom.py:Random.__init__", "TrackGenerator/TrackGenerator.py:run"]}
{"id": "C23", "title": "Generated tracks do not depend on the number of processes", "statement": "With a fixed seed the tracks generated for each simulation are the same whatever the number of processes and whatever other simulations ran before on the same process.", "quantifier": "every seed, every simulation list, every process count", "why_tests_cant": "Needs comparison over all process counts and all histories of the shared generator.", "anchors": ["TrackGenerator/TrackGenerator.py:TrackGenerator.generateTracks", "TrackGenerator/TrackGenerator.py:run", "TrackGenerator/trackLandfall.py:LandfallDecay.pChange"]}
{"id": "C24", "title": "Track generation returns only tracks passing every physical filter", "statement": "generateTracks returns exactly the requested number of tracks, numbered 0..n-1 with the simulation number. Every returned track is non-empty, no longer than the configured number of steps, lasts at least 12 hours, starts in the domain with a pressure deficit above 1 hPa and an eye radius below 100 km, has central pressure below the environmental pressure and eye radius between 5 and 500 km at every point without missing values, lies in the inner domain when one is set, and every later point is in the domain with deficit at least 2 hPa (5 hPa after 12 hours).", "quantifier": "every sequence of random numbers, every configuration for which the call returns", "why_tests_cant": "Random generation cannot reach all candidates.", "anchors": ["TrackGenerator/TrackGenerator.py:TrackGenerator.generateTracks"]}
{"id": "C25", "title": "A generated track stays within the domain and its time advances uniformly", "statement": "Along a generated track the age increases by one time step per point starting from zero, the recorded points are in the domain (except that the first is always recorded), generation stops at the first point that leaves the domain or is invalid, and no track is longer than the configured number of steps.", "quantifier": "every sequence of random steps, every domain, every maximum number of steps", "why_tests_cant": "Universal over random step sequences.", "anchors": ["TrackGenerator/TrackGenerator.py:TrackGenerator._singleTrack", "TrackGenerator/TrackGenerator.py:TrackGenerator._notValidTrackStep"]}
{"id": "C26", "title": "Initial conditions of one track do not influence later tracks", "statement": "The initial environmental pressure used for a track is either the configured one or the one sampled for its own genesis position and date; it never depends on earlier tracks of the simulation.", "quantifier": "every sequence of genesis events in a simulation", "why_tests_cant": "Needs sequences of at least two tracks with particular configuration.", "anchors": ["TrackGenerator/TrackGenerator.py:TrackGenerator.generateTracks"]}
{"id": "C27", "title": "Time over land counts consecutive land steps", "statement": "The decay clock equals the time step multiplied by the number of consecutive points over land up to now, is zero over water, and the decayed central pressure lies between the landfall pressure and the environmental pressure, filling monotonically while over land.", "quantifier": "every sequence of land/sea points, every time step, every landfall deficit", "why_tests_cant": "Histories of arbitrary length.", "anchors": ["TrackGenerator/trackLandfall.py:LandfallDecay.onLand", "TrackGenerator/trackLandfall.py:LandfallDecay.pChange"]}
{"id": "C28", "title": "Reading a multi-track file returns every track once", "statement": "Splitting a track table by cyclone identifier returns each record exactly once, grouped by identifier in increasing order.", "quantifier": "every table of records with any identifiers", "why_tests_cant": "Identifier conventions (zero, gaps) vary between sources.", "anchors": ["Utilities/track.py:readMultipleTrackData"]}
{"id": "C29", "title": "Track initialisation flags partition the records into cyclones", "statement": "The start-of-track flags derived from the identifying columns mark the first record and each record whose identifier differs from that of its predecessor, and the derived cyclone numbers group the records into exactly those contiguous runs.", "quantifier": "every record table with any of the supported identifier columns", "why_tests_cant": "Combinatorial choice of columns and values.", "anchors": ["Utilities/loadData.py:getInitialPositions", "Utilities/loadData.py:loadTrackFile"]}
{"id": "C30", "title": "Elapsed time and time steps agree", "statement": "Within each track the elapsed time is the running sum of the time steps, is zero at each start of a track, and time steps of start records are zero.", "quantifier": "every flag sequence and every time sequence", "why_tests_cant": "Histories of arbitrary length.", "anchors": ["Utilities/loadData.py:getTimeElapsed", "Utilities/loadData.py:getTimeDelta"]}
{"id": "C31", "title": "Bearing rates take the shorter way round", "statement": "The bearing change between consecutive records of one track is congruent to the difference of the bearings modulo 360 degrees and lies in [-180,180].", "quantifier": "every sequence of bearings in [0,360)", "why_tests_cant": "Continuous inputs and wrap-around.", "anchors": ["DataProcess/DataProcess.py:DataProcess._bearingRate"]}
{"id": "C32", "title": "Pressure filtering leaves plausible values or the missing value", "statement": "After filtering, every pressure is either the missing value or lies within the accepted range in hPa, and a value already within the range is unchanged.", "quantifier": "every pressure list and both input units", "why_tests_cant": "Universal over values.", "anchors": ["Utilities/loadData.py:filterPressure"]}
{"id": "C33", "title": "The automatically extended track domain covers the cyclones that enter the wind field domain", "statement": "The extended domain contains the wind field domain and every position of each cyclone that enters the wind field domain, and it is not larger than needed to whole degrees.", "quantifier": "every record table and every wind field domain", "why_tests_cant": "Depends on the position sequence of whole tracks.", "anchors": ["DataProcess/CalcTrackDomain.py:CalcTrackDomain.calc"]}
{"id": "C34", "title": "Annual frequency counts every genesis in the domain once", "statement": "For a record of at least two different years, the mean annual frequency is, rounded to two decimals, the number of track starts strictly inside the domain before the last year divided by the number of years from the first to the one before the last.", "quantifier": "every list of years and start positions and every domain", "why_tests_cant": "Edge years and empty years.", "anchors": ["DataProcess/CalcFrequency.py:CalcFrequency.calc"]}
{"id": "C35", "title": "Segment intersection is exact", "statement": "The test for two line segments reports an intersection point exactly when the segments cross in a single point, the reported point lies on both segments, and parallel and coincident segments are told apart.", "quantifier": "every pair of segments with rational coordinates", "why_tests_cant": "Continuous inputs with degenerate cases.", "anchors": ["Utilities/Intersections.py:Intersections.LineLine"]}
{"id": "C36", "title": "A segment is reported to cross a polygon only if it crosses an edge", "statement": "Testing a segment against a polygon reports an intersection exactly when the segment meets at least one edge of the polygon.", "quantifier": "every segment and every polygon", "why_tests_cant": "Universal over polygons.", "anchors": ["Utilities/Intersections.py:Intersections.LinePolygon"]}
{"id": "C37", "title": "Point-in-polygon tests agree", "statement": "For every polygon and every point not on an edge, the winding-number test reports inside exactly when the crossing-number test does for simple polygons, and both are zero for points outside the bounding box.", "quantifier": "every polygon and point", "why_tests_cant": "Universal over polygons.", "anchors": ["Utilities/Intersections.py:Intersections._cnPnPoly", "Utilities/Intersections.py:Intersections._wnPnPoly"]}
{"id": "C38", "title": "Circle and segment classification is exhaustive and correct", "statement": "Testing a circle against a segment reports Outside, Tangent, Inside or Intersection according to the true number of common points, and reported points lie on both the segment and the circle.", "quantifier": "every circle and every non-degenerate segment", "why_tests_cant": "Continuous inputs, degenerate cases.", "anchors": ["Utilities/Intersections.py:Intersections.CircleLine"]}
{"id": "C39", "title": "Growable record arrays behave like lists", "statement": "After any sequence of append and extend operations the stored data are exactly the appended records in order, and the reported length is their number.", "quantifier": "every sequence of operations of any length", "why_tests_cant": "Reallocation happens only at particular lengths.", "anchors": ["Utilities/dynarray.py:DynamicRecArray"]}
{"id": "C40", "title": "The processed-file ledger remembers what was recorded", "statement": "A file recorded as processed with given modification date and checksum is reported as processed until something else is recorded for it, other files are unaffected, and writing the ledger to disk and reading it again gives the same answers.", "quantifier": "every history of record, query, write and reload operations with arbitrary names", "why_tests_cant": "Histories are unbounded; file names may contain any character.", "anchors": ["Utilities/process.py:pSetProcessedEntry", "Utilities/process.py:pGetProcessedEntry", "Utilities/process.py:pWriteProcessedFile", "Utilities/process.py:pGetProcessedFiles", "Utilities/process.py:pAlreadyProcessed"]}
{"id": "C41", "title": "Configuration values are read once and fall back to defaults", "statement": "The first configuration file read determines every value it sets, options it does not set take the built-in default, reading another file later changes nothing, and values written with set are returned by get afterwards.", "quantifier": "every sequence of read, get and set operations", "why_tests_cant": "Histories of operations in a process-wide singleton.", "anchors": ["Utilities/config.py:_ConfigParser.read", "Utilities/config.py:_ConfigParser.set", "Utilities/config.py:ConfigParser", "Utilities/config.py:cnfGetIniValue"]}
{"id": "C42", "title": "Boolean and list options survive formatting", "statement": "Formatting a list option and parsing it again gives the same list of strings, and parsing a boolean accepts exactly the documented spellings.", "quantifier": "every list of strings and every string", "why_tests_cant": "Separators inside elements.", "anchors": ["Utilities/config.py:parseList", "Utilities/config.py:formatList", "Utilities/config.py:parseBool"]}
{"id": "C43", "title": "Master-only functions run on the master only", "statement": "A function marked to be disabled on workers runs exactly once over all processes, on rank 0, with its arguments and result unchanged, and returns nothing on the other processes.", "quantifier": "every function, every process count", "why_tests_cant": "Needs all ranks.", "anchors": ["Utilities/parallel.py:disableOnWorkers"]}
{"id": "C44", "title": "All processes pass the same barriers", "statement": "On a run without errors every process passes the same sequence of barriers for every combination of selected actions, so no process waits forever. If one process fails in an action the others do not wait forever.", "quantifier": "every combination of actions, every process count, every failure point", "why_tests_cant": "Failures on single processes are not exercised by tests.", "anchors": ["tcrm.py:main", "tcrm.py:startup", "wind/__init__.py:run", "hazard/__init__.py:run"]}
{"id": "C45", "title": "Nearest grid index is nearest", "statement": "The index returned for a value is that of a grid value at minimal distance, the first one when several are equally near, for every value inside or outside the grid.", "quantifier": "every non-empty grid in any order, every value", "why_tests_cant": "Universal over grids.", "anchors": ["Utilities/maputils.py:find_index", "Utilities/maputils.py:find_nearest", "Utilities/timeseries.py:Timeseries.sample"]}
{"id": "C46", "title": "Bearing and mathematical angle conversions are inverse", "statement": "Converting a bearing to a mathematical angle and back gives the same direction modulo a full turn, and both conversions return values within one turn.", "quantifier": "every angle", "why_tests_cant": "Continuous inputs.", "anchors": ["Utilities/maputils.py:bearing2theta", "Utilities/maputils.py:theta2bearing"]}
{"id": "C47", "title": "Unit conversions are inverse pairs", "statement": "Converting a value from one supported unit to another and back returns the original value, and a conversion between unsupported units is reported rather than ignored.", "quantifier": "every value, every pair of units of the same kind", "why_tests_cant": "All pairs of units.", "anchors": ["Utilities/metutils.py:convert"]}
{"id": "C48", "title": "Humidity conversions are consistent", "statement": "Relative humidity derived from vapour pressure lies in [0,100], and the conversions between vapour pressure, mixing ratio and specific humidity are inverse to each other on their domain.", "quantifier": "every physical input", "why_tests_cant": "Continuous inputs.", "anchors": ["Utilities/metutils.py:vapPrToRH", "Utilities/metutils.py:vapPrToMixRat", "Utilities/metutils.py:mixRatToVapPr", "Utilities/metutils.py:spHumToMixRat"]}
{"id": "C49", "title": "L-moments are location-scale equivariant", "statement": "The first L-moment is the mean; adding a constant to all data shifts only the first L-moment; multiplying by a positive constant scales the first two and leaves the third L-moment ratio unchanged; the second L-moment of sorted data is non-negative and zero only for constant data; the specialised three-moment routine agrees with the general one.", "quantifier": "every sorted sample of at least three values", "why_tests_cant": "Universal over samples of every length.", "anchors": ["Utilities/lmomentFit.py:samlmu", "Utilities/lmomentFit.py:samlmu3"]}
{"id": "C50", "title": "Return levels increase with the return period", "statement": "For accepted fits the GEV and, for shapes other than zero, the generalised Pareto return levels are non-decreasing in the return period, the Pareto recurrence interval function is the inverse of its return level function, and the empirical curve is non-decreasing.", "quantifier": "every accepted parameter set, every pair of return periods", "why_tests_cant": "Continuous parameters.", "anchors": ["hazard/evd.py:gevfit", "hazard/evd.py:gpdReturnLevel", "hazard/evd.py:empfit", "hazard/GPD.py:gpdReturnLevel", "hazard/GPD.py:gpdRecurrenceIntervals"]}
{"id": "C51", "title": "Hazard fits report missing values rather than bogus ones", "statement": "For every record series the fit returns the missing value at all return periods when there are too few positive records, when all are equal, or when the fitted shape is not acceptable; otherwise it returns the fitted parameters.", "quantifier": "every record series, every minimum record count", "why_tests_cant": "Guards interact; rejected fits are rare in test data.", "anchors": ["hazard/evd.py:gevfit", "hazard/evd.py:gpdfit", "hazard/GPD.py:gpdfit"]}
{"id": "C52", "title": "Surface pressure stays between central and environmental pressure", "statement": "The radial pressure profile is between the central and environmental pressure and non-decreasing with distance from the centre, for the single and for the double vortex profile.", "quantifier": "every radius, every central pressure below the environmental pressure, every positive shape parameter", "why_tests_cant": "Continuous inputs.", "anchors": ["PressureInterface/pressureProfile.py:PrsProfile.holland", "PressureInterface/pressureProfile.py:PrsProfile.doubleHolland", "PressureInterface/pressureProfile.py:PrsProfile.powell"]}
{"id": "C53", "title": "The inner-core wind profile joins smoothly at the radius of maximum wind", "statement": "Inside the radius of maximum wind the cubic profile is zero at the centre and at the radius of maximum wind equals the maximum wind with the prescribed first and second derivative.", "quantifier": "every parameter set", "why_tests_cant": "Algebraic identity over all parameters.", "anchors": ["wind/windmodels.py:HollandWindProfile.velocity", "wind/windmodels.py:DoubleHollandWindProfile.velocity"]}
{"id": "C54", "title": "Maximum wind and central pressure conversions are inverse", "statement": "Central pressure computed from a maximum wind and then converted back returns the same wind for each supported relation, and an environmental pressure below the central pressure is rejected.", "quantifier": "every pressure pair, every relation", "why_tests_cant": "Continuous inputs.", "anchors": ["wind/vmax.py:vmax", "wind/vmax.py:pDiff"]}
{"id": "C55", "title": "Station summaries record the extremes of the station series", "statement": "For each station with wind recorded, the maximum record is the first record of its series with the highest speed and the minimum record the first with the lowest pressure; stations outside the grid contribute calm records.", "quantifier": "every sequence of time steps, every set of stations", "why_tests_cant": "Histories of arbitrary length.", "anchors": ["Utilities/timeseries.py:Timeseries.extract", "Utilities/timeseries.py:Timeseries.shutdown", "Utilities/timeseries.py:Station.insideGrid"]}
{"id": "C56", "title": "A downloaded data set is complete", "statement": "If a data set is reported as downloaded then its file holds the complete downloaded content, whatever interruptions happened before.", "quantifier": "every history of download attempts with failures at any point", "why_tests_cant": "Crash points and failing downloads.", "anchors": ["Utilities/datasets.py:DataSet.download", "Utilities/datasets.py:DataSet.isDownloaded"]}
{"id": "C57", "title": "The wind field domain of a track encloses that track", "statement": "When no domain is configured, the domain used for each track is the smallest whole-degree box containing that track.", "quantifier": "every sequence of tracks processed by one generator", "why_tests_cant": "Depends on the order of tracks in a process.", "anchors": ["wind/__init__.py:WindfieldGenerator.setGridLimit", "wind/__init__.py:WindfieldGenerator.calculateExtremesFromTrack"]}
{"id": "C58", "title": "Local wind grids fit into the regional grid", "statement": "The index window used for a time step lies within the regional grid and has the same shape as the local wind field for every track position in the region.", "quantifier": "every region, margin, resolution and track position", "why_tests_cant": "Rounding of positions to grid indices.", "anchors": ["wind/__init__.py:WindfieldAroundTrack.regionalExtremes", "Utilities/maputils.py:makeGrid"]}
{"id": "C59", "title": "Bootstrap blocks cover the shuffled record", "statement": "The confidence interval calculation divides the shuffled records into consecutive blocks of the sample size without losing records of any block.", "quantifier": "every record count and sample size", "why_tests_cant": "Integer/float division and off-by-one.", "anchors": ["hazard/__init__.py:calculateCI"]}
{"id": "C60", "title": "Grid files survive a write and read cycle", "statement": "Writing a grid in the ASCII format and reading it again returns the same values at the same coordinates.", "quantifier": "every grid", "why_tests_cant": "Row order conventions; universal over grid shapes.", "anchors": ["Utilities/grid.py:grdSave", "Utilities/grid.py:grdRead", "Utilities/grid.py:SampleGrid"]}
{"id": "C61", "title": "A failing tile does not hang the hazard run", "statement": "If the computation of one tile raises on a worker process, the run reports the failure and terminates on all processes.", "quantifier": "every tile list, every failing tile, every process count, every interleaving", "why_tests_cant": "hangs depend on the schedule and only show when a worker dies; no test run covers all interleavings", "anchors": ["hazard/__init__.py HazardCalculator.dumpHazardFromTiles", "hazard/__init__.py run"]}
{"id": "C62", "title": "A resumed wind field run produces the same gust files", "statement": "A wind field run that stops part way and is started again with the same configuration leaves the same gust files, with the same contents, as a run that was never interrupted.", "quantifier": "all track sets, all interruption points", "why_tests_cant": "Tests run the wind field stage once to completion; an interruption at every possible point is not a test input.", "anchors": ["wind/__init__.py:400-414", "wind/__init__.py:510-561", "wind/__init__.py:581-705"]}
{"id": "C63", "title": "Each track's local wind field is kept", "statement": "When wind multipliers are applied, every track for which a gust file exists at the end of the run also has its own local wind field output.", "quantifier": "all track sets, all interruption points", "why_tests_cant": "Output file names are only visible with several tracks in one run and after crashes; the tests apply multipliers to one file.", "anchors": ["wind/__init__.py:510-561", "wind/__init__.py:738-770", "ProcessMultipliers/processMultipliers.py:811-927"]}
{"id": "C64", "title": "Track generation completes for every positive number of simulations", "statement": "Running track generation with NumSimulations = N for any N >= 1 generates N simulations and does not raise.", "quantifier": "all N, all seeds", "why_tests_cant": "Tests use one configuration value.", "anchors": ["TrackGenerator/TrackGenerator.py:1735-1896"]}
{"id": "C65", "title": "Database loading copes with every file in the wind field directory", "statement": "Building the hazard database after a run succeeds whatever files the earlier stages left in the wind field directory, and only gust files become events.", "quantifier": "all directory contents", "why_tests_cant": "The directory contents depend on which other stages ran.", "anchors": ["database/__init__.py:351-482", "wind/__init__.py:738-770"]}
{"id": "C66", "title": "Loading the same results twice leaves the database unchanged", "statement": "Populating the database a second time from the same files leaves event and wind speed tables as they were.", "quantifier": "all file lists, all table states", "why_tests_cant": "Needs every prior state of the tables.", "anchors": ["database/__init__.py:306-348", "database/definitions.py:15-60"]}
{"id": "C67", "title": "Location queries return the records of the queried location", "statement": "A query for a location returns exactly the stored wind speed, event and distance records of that location meeting the thresholds.", "quantifier": "all table contents, all locations and thresholds", "why_tests_cant": "Join conditions only show their errors on databases with several locations per event.", "anchors": ["database/queries.py:30-200"]}
{"id": "C68", "title": "Genesis pressure is below the environmental pressure", "statement": "The central pressure sampled for a new cyclone is a tabulated value below the environmental pressure at its origin.", "quantifier": "every pressure distribution, every environmental pressure, every random number", "why_tests_cant": "Depends on an index one before the insertion point, which wraps round at the low end.", "anchors": ["TrackGenerator/TrackGenerator.py:generateTracks"]}
{"id": "C69", "title": "A distribution built from observations can be sampled", "statement": "The table built from at least two observations by kernel density estimation has increasing values inside the range of the data (or of the angle or period), cumulative values that do not decrease and that end at one.", "quantifier": "every sample, every step, every non-negative density that is not zero on the whole grid; plain, angular and periodic data", "why_tests_cant": "Universal over samples and steps; the periodic slice indices depend on the step.", "anchors": ["StatInterface/KDEParameters.py:generateKDE", "Utilities/stats.py:cdf"]}
{"id": "C70", "title": "Each cell gets its own distribution", "statement": "The rows that the track generator selects for a cell from the stacked table of all cells are exactly the distribution built from that cell's sample.", "quantifier": "every number of cells, every sample per cell", "why_tests_cant": "Universal over the number and size of the cell tables.", "anchors": ["StatInterface/GenerateDistributions.py:allDistributions", "TrackGenerator/TrackGenerator.py:generateTracks"]}
{"id": "C71", "title": "Every sampled origin lies in a grid cell", "statement": "Every origin that can be sampled from the density built on the domain's grid lies in the domain and has a cell number.", "quantifier": "every domain, grid step, density and pair of positive random numbers", "why_tests_cant": "Domain edges are reached only by rare random numbers.", "anchors": ["StatInterface/KDEOrigin.py:__init__", "StatInterface/SamplingOrigin.py:ppf", "Utilities/stats.py:getCellNum"]}
{"id": "C72", "title": "Prescribed initial conditions are used", "statement": "Each initial condition passed to generateTracks (position, speed, bearing, pressure, radius) is the one the returned tracks start with.", "quantifier": "every prescribed value, every sequence of random numbers", "why_tests_cant": "Zero is a legal value that behaves differently from all others.", "anchors": ["TrackGenerator/TrackGenerator.py:558-660"]}
{"id": "C73", "title": "Track generation from a prescribed genesis point returns", "statement": "generateTracks with prescribed initial conditions returns; when the storm would leave the domain at once no tracks are generated, as its documentation says.", "quantifier": "every prescribed condition, every domain", "why_tests_cant": "A test cannot observe that a loop never ends.", "anchors": ["TrackGenerator/TrackGenerator.py:440-490", "TrackGenerator/TrackGenerator.py:558-689"]}
{"id": "C74", "title": "The observed eye radius distribution is used when present", "statement": "When the file all_cell_cdf_init_rmax exists, generateTracks samples the initial radius from it and returns tracks.", "quantifier": "every content of the file, every configuration", "why_tests_cant": "Tests run without the optional file.", "anchors": ["TrackGenerator/TrackGenerator.py:351-362", "TrackGenerator/TrackGenerator.py:640-646", "TrackGenerator/TrackGenerator.py:1034-1045"]}
{"id": "C75", "title": "Tracks are split where positions jump", "statement": "Consecutive records of one identifier are put into different tracks exactly when they are further apart than the limit in longitude or latitude, whatever the direction and wherever the meridian.", "quantifier": "every sequence of positions", "why_tests_cant": "Direction and meridian cases are easily missed.", "anchors": ["Utilities/loadData.py:loadTrackFile", "DataProcess/DataProcess.py:DataProcess.processData"]}
{"id": "C76", "title": "Pressure change rates come from two observed pressures of one cyclone", "statement": "Each pressure change rate is the missing value or lies within 10 hPa per hour and is the difference of two consecutive observed pressures of one cyclone divided by the time step.", "quantifier": "every list of pressures (observed or missing), steps and flags", "why_tests_cant": "Missing values may be anywhere.", "anchors": ["DataProcess/DataProcess.py:DataProcess._pressureRate"]}
{"id": "C77", "title": "Size change rates come from two observed radii of one cyclone", "statement": "Each size change rate is the missing value or the difference of two consecutive observed radii of one cyclone divided by the time step.", "quantifier": "every list of radii (observed or missing), steps and flags", "why_tests_cant": "Missing values may be anywhere.", "anchors": ["DataProcess/DataProcess.py:DataProcess._rmaxRate"]}
{"id": "C78", "title": "Cyclones that enter the wind field domain are kept whole", "statement": "With the automatically extended domain, the extraction keeps every record of each cyclone that has a position inside the wind field domain, and never keeps part of a cyclone.", "quantifier": "every record table and wind field domain", "why_tests_cant": "Composition of two loops over whole histories.", "anchors": ["DataProcess/DataProcess.py:DataProcess.extractTracks", "DataProcess/CalcTrackDomain.py:CalcTrackDomain.calc"]}
{"id": "C79", "title": "Origins, initial and later values partition the records", "statement": "The origin, initial and later values extracted for the statistics are the first, the second and the remaining values of each cyclone, in order.", "quantifier": "every flag sequence starting with a start record", "why_tests_cant": "Cyclones with one record and adjacent starts are corner cases of arbitrary sequences.", "anchors": ["DataProcess/DataProcess.py:DataProcess.processData", "DataProcess/DataProcess.py:DataProcess._bearing"]}
{"id": "C80", "title": "Translation speeds are plausible or missing", "statement": "Each translation speed is the missing value or lies in [0,200] km/h and is the distance from the previous record of the same cyclone divided by the time step.", "quantifier": "every list of distances, steps and flags", "why_tests_cant": "Universal over values, including zero steps.", "anchors": ["DataProcess/DataProcess.py:DataProcess._speed", "Utilities/loadData.py:getSpeedBearing"]}
{"id": "C81", "title": "The frequency counts the cyclones used for the statistics", "statement": "A cyclone start is counted in the annual frequency if and only if the cyclone is among those extracted for the domain.", "quantifier": "every domain and every record table", "why_tests_cant": "Only the edges of the domain distinguish the two tests.", "anchors": ["DataProcess/CalcFrequency.py:CalcFrequency.calc", "DataProcess/DataProcess.py:DataProcess.extractTracks"]}
{"id": "C82", "title": "Made up years keep the dates of a cyclone consistent", "statement": "For tables without years, the years made up for the records of one cyclone differ by the same amounts as the true years, and every date stays valid.", "quantifier": "every cyclone of at most one change of year observed in January", "why_tests_cant": "Depends on month sequences and leap days.", "anchors": ["Utilities/loadData.py:parseDates"]}
{"id": "C83", "title": "One size deviate for each cyclone", "statement": "When the radius to maximum winds is sampled, the radius at genesis is at most 100 km and one random deviate, kept for the whole life of the cyclone, determines the radius at every record from the pressure deficit and the latitude.", "quantifier": "every configuration and random sequence", "why_tests_cant": "Unbounded number of redraws and records.", "anchors": ["TrackGenerator/TrackGenerator.py:TrackGenerator.generateTracks", "TrackGenerator/trackSize.py:rmax"]}
{"id": "C84", "title": "A circle is reported to cut a polygon exactly when it cuts an edge", "statement": "Testing a circle against a polygon, given as one array of points or as a list of parts, reports an intersection exactly when the circle cuts at least one edge of the polygon, and lists the points edge by edge.", "quantifier": "every circle and polygon with any number of vertices", "why_tests_cant": "Unbounded number of vertices; real valued coordinates.", "anchors": ["Utilities/Intersections.py:Crossings.CirclePolygon"]}
{"id": "C85", "title": "Longitude crossings are counted once in their direction", "statement": "Every passage of a track across a gate longitude within the latitudes of the gate is recorded exactly once, at the latitude of the passage and in the list of its direction, so that along a track west-east passages minus east-west passages equal the net change of side.", "quantifier": "every track of any length, every gate", "why_tests_cant": "Unbounded tracks; positions of vertices relative to the gate.", "anchors": ["Evaluate/longitudeCrossing.py:LongitudeCrossing.findCrossings", "Evaluate/evaluate.py:EvalLongitudeCrossings.findCrossings", "Utilities/Intersections.py:Crossings.LineLine"]}
{"id": "C86", "title": "The crossing number test decides whether a point lies in a polygon", "statement": "For a polygon that can be cut into triangles along chords, a point on no edge is reported inside exactly when it lies inside one of the triangles, whatever the direction and the starting vertex of the vertex list, and a point outside the bounding box is reported outside. For every closed polygon the answer is the same along a segment that does not meet the polygon, so points joined by such a path to a point outside the bounding box are reported outside, and between the ends of a segment in general position it changes exactly if the segment crosses an odd number of edges.", "quantifier": "every polygon with any number of vertices, every point", "why_tests_cant": "Unbounded number of vertices; all positions of the point.", "anchors": ["Utilities/Intersections.py:_cnPnPoly"]}
{"id": "C87", "title": "Parallel track evaluation gives the serial result", "statement": "Evaluating synthetic track files with several processes finishes and gives the same means and percentiles as with one process, for any number of files and processes.", "quantifier": "every list of track files, every process count, every order in which results arrive", "why_tests_cant": "which worker answers first and how many files there are per worker depend on the machine; the failure appears only with fewer files than workers", "anchors": ["Evaluate/trackDensity.py: TrackDensity.synthetic", "Evaluate/genesisDensity.py: GenesisDensity.synthetic", "Evaluate/longitudeCrossing.py: LongitudeCrossing.synthetic"]}
{"id": "C88", "title": "Relative humidity from specific humidity agrees with that from vapour pressure", "statement": "For air with a given vapour pressure, the relative humidity computed from its specific humidity in the documented unit (g/kg) equals the one computed from the vapour pressure itself.", "quantifier": "every vapour pressure, saturation vapour pressure and air pressure", "why_tests_cant": "Continuous inputs; the existing test fixes the value the code returns.", "anchors": ["Utilities/metutils.py:spHumToRH", "Utilities/metutils.py:vapPrToSpHum"]}
{"id": "C89", "title": "Fitted distributions reproduce the moments they were estimated from", "statement": "For valid L-moments the estimated extreme value and Pareto distributions have a positive scale and exactly the mean and second L-moment (for Pareto also the third ratio) they were estimated from; the extreme value distribution estimated from a skewness of at least -0.8 has that skewness up to 0.02; invalid moments give the zero parameter set.", "quantifier": "every valid triple of L-moments", "why_tests_cant": "Continuous inputs; a formula slip gives plausible parameters.", "anchors": ["Utilities/lmomentFit.py:pelgev", "Utilities/lmomentFit.py:pelgpa"]}
{"id": "C90", "title": "Every documented wind profile and boundary layer model can be run", "statement": "Each profileType and windFieldType listed in the documentation selects a wind profile, a pressure profile and a wind field, so the wind field of a track is computed.", "quantifier": "every documented pair of names, every other name", "why_tests_cant": "Tests run one configuration; the profile and pressure modules are resolved by name at run time.", "anchors": ["wind/__init__.py:WindAroundTrack.localWindField", "wind/__init__.py:WindAroundTrack.pressureProfile", "wind/windmodels.py:profile", "docs/setup.rst:215"]}
{"id": "C91", "title": "Wind and pressure of one storm use the same shape parameter", "statement": "The wind field and the pressure field that are reported for one time of one storm are computed with the same shape parameter.", "quantifier": "every latitude, pressure deficit and radius of maximum wind, every profile", "why_tests_cant": "Each module is tested against its own reference values.", "anchors": ["wind/windmodels.py:PowellWindProfile", "wind/windmodels.py:WilloughbyWindProfile", "PressureInterface/pressureProfile.py:PrsProfile"]}
{"id": "C92", "title": "The gradient wind is continuous in the distance from the centre", "statement": "Arbitrarily close points have arbitrarily close gradient winds, in particular on the two sides of the radius of maximum wind.", "quantifier": "every storm, every radius", "why_tests_cant": "A test compares finitely many radii.", "anchors": ["wind/windmodels.py:HollandWindProfile.velocity", "wind/windmodels.py:JelesnianskiWindProfile.velocity", "wind/windmodels.py:RankineWindProfile.velocity"]}
{"id": "C93", "title": "The wind of every storm weaker than its environment is computed", "statement": "For every central pressure below the environmental pressure the wind speed and vorticity are computed without an assertion failure.", "quantifier": "every latitude, pressure pair, radius of maximum wind and shape parameter", "why_tests_cant": "The failing region is a region of a four-dimensional parameter space.", "anchors": ["wind/windmodels.py:HollandWindProfile.secondDerivative", "wind/windmodels.py:HollandWindProfile.velocity"]}
{"id": "C94", "title": "Relative vorticity is consistent with the wind profile", "statement": "The vorticity of a profile is the derivative of its velocity plus velocity over radius, up to the orientation.", "quantifier": "every storm, every radius", "why_tests_cant": "Needs the derivative of a function of a real variable.", "anchors": ["wind/windmodels.py:HollandWindProfile.vorticity", "wind/windmodels.py:JelesnianskiWindProfile.vorticity", "wind/windmodels.py:RankineWindProfile.vorticity"]}
{"id": "C95", "title": "Storms in the two hemispheres are mirror images", "statement": "The storm obtained by reflecting latitude, direction of motion and azimuth in the equator has the reflected wind field.", "quantifier": "every storm, every point", "why_tests_cant": "A relation between two executions over all inputs.", "anchors": ["wind/windmodels.py:HollandWindProfile.velocity", "wind/windmodels.py:HubbertWindField.field", "wind/windmodels.py:McConochieWindField.field", "wind/windmodels.py:KepertWindField.field", "wind/windmodels.py:DoubleHollandWindProfile.velocity"]}
{"id": "C96", "title": "Compiled and interpreted wind fields agree", "statement": "The compiled profile and field and the interpreted profile and field give the same winds, so results do not depend on whether the extension was built.", "quantifier": "every storm, every point", "why_tests_cant": "The test environment has either the one or the other.", "anchors": ["wind/windmodels.f90:fhollandvel", "wind/windmodels.f90:fhollandvort", "wind/windmodels.f90:fkerpert", "wind/windmodels.py:HollandWindProfile", "wind/windmodels.py:KepertWindField"]}
{"id": "C97", "title": "Surface winds of a stationary storm are cyclonic and never blow outward", "statement": "For a storm that does not move, each boundary layer model gives a surface wind with no outward component and with a tangential component in the direction of the gradient wind.", "quantifier": "every storm, every point, every line of maximum wind", "why_tests_cant": "Continuous inputs and complex arithmetic.", "anchors": ["wind/windmodels.py:HubbertWindField.field", "wind/windmodels.py:McConochieWindField.field", "wind/windmodels.py:KepertWindField.field"]}
{"id": "C98", "title": "No gradient wind exceeds the maximum wind or turns against the storm", "statement": "The gradient wind speed at every radius is at most the maximum wind speed of the profile, and the wind turns cyclonically.", "quantifier": "every storm, every radius", "why_tests_cant": "The excess is just inside the radius of maximum wind and depends on all parameters.", "anchors": ["wind/windmodels.py:HollandWindProfile.velocity", "wind/windmodels.py:JelesnianskiWindProfile.velocity", "wind/windmodels.py:RankineWindProfile.velocity"]}
{"id": "C99", "title": "A stronger gradient wind never gives a weaker surface wind", "statement": "In the McConochie model of a stationary storm the surface wind speed is non-decreasing in the gradient wind speed and never above it.", "quantifier": "every pair of gradient wind speeds", "why_tests_cant": "The reduction factor is piecewise; the drop is at one breakpoint.", "anchors": ["wind/windmodels.py:McConochieWindField.field"]}
{"id": "C100", "title": "Great circle distances agree and form a metric", "statement": "The grid distance and the pairwise distance between two positions are the same number; it is symmetric, at most half the circumference, zero exactly for the same place and satisfies the triangle inequality.", "quantifier": "all positions", "why_tests_cant": "Continuous inputs; two independent formulas.", "anchors": ["Utilities/maputils.py:distGC", "Utilities/maputils.py:gridLatLonDist"]}
{"id": "C101", "title": "A step along a bearing covers the given distance in the given direction", "statement": "The position computed from a bearing and a distance is at exactly that great circle distance, in exactly that direction, within the range of latitudes; hence consecutive positions of a generated track are speed times time step apart and no position is farther from the genesis than the distance travelled.", "quantifier": "every start, bearing, distance up to half the circumference, every track", "why_tests_cant": "Continuous inputs and histories of any length.", "anchors": ["Utilities/maputils.py:bear2LatLon", "Utilities/maputils.py:gridLatLonBear", "TrackGenerator/TrackGenerator.py:TrackGenerator._singleTrack"]}
{"id": "C102", "title": "Compiled and interpreted grids around the storm agree", "statement": "Distance and angle of every grid point are the same with and without the compiled module, and no distance is zero.", "quantifier": "every centre and grid point", "why_tests_cant": "The test environment has either the one or the other.", "anchors": ["Utilities/maputils.f90:beardist", "Utilities/maputils.py:makeGrid"]}
{"id": "C103", "title": "Distance and bearing between recorded positions are those of the sphere", "statement": "The distance reported for two consecutive recorded positions is the great circle distance and does not depend on the direction of travel.", "quantifier": "all pairs of positions", "why_tests_cant": "Continuous inputs.", "anchors": ["Utilities/maputils.py:latLon2Azi", "Utilities/maputils.py:latLon2XY"]}
{"id": "C104", "title": "The strongest wind lies on the configured line of maximum wind", "statement": "With thetaMax degrees configured the strongest surface wind around a moving storm is at thetaMax degrees from the direction of motion.", "quantifier": "every storm, every configured angle", "why_tests_cant": "The angle passes through three layers, each tested alone.", "anchors": ["wind/__init__.py:run", "wind/__init__.py:WindAroundTrack.__init__", "wind/windmodels.py:McConochieWindField.field", "docs/setup.rst:244"]}
{"id": "C105", "title": "The coordinates of the local grid are those of its points", "statement": "meshLatLon returns the coordinates of the points for which makeGrid computes distance and angle with the same centre, margin and resolution.", "quantifier": "every centre, margin and resolution", "why_tests_cant": "Truncation towards zero changes with the sign of the coordinates.", "anchors": ["Utilities/maputils.py:makeGrid", "Utilities/maputils.py:meshLatLon", "Evaluate/windFieldValidation.py:calculateWindField"]}
{"id": "C106", "title": "Station series cover every track of a run", "statement": "After a wind field run the series and summary files of a station hold the records of all tracks of the run, whether the run used one or several processes and whether or not it was resumed after an interruption.", "quantifier": "every assignment of tracks to processes, every order in which processes write, every set of tracks completed before", "why_tests_cant": "Process schedules and interruptions.", "anchors": ["wind/__init__.py:run", "wind/__init__.py:WindfieldGenerator.dumpGustsFromTracks", "Utilities/timeseries.py:Timeseries.shutdown"]}
{"id": "C107", "title": "Local station gusts interpolate the site multipliers", "statement": "The factor applied to a gust of a station is interpolated between the multipliers of the neighbouring compass directions, equal to the multiplier of a direction for a wind from exactly that direction; the summary records are the extremes of the adjusted series.", "quantifier": "every set of multipliers, every gust and bearing, every series", "why_tests_cant": "Continuum of bearings; series of any length.", "anchors": ["Utilities/tsmultipliers.py:tsmultiply"]}
{"id": "C108", "title": "The download step leaves every listed data set in place", "statement": "If the download step returns, every data set listed in the configuration is stored in its file, and files that were there before are unchanged.", "quantifier": "every list of data sets, every outcome of each download", "why_tests_cant": "Combinations of failures.", "anchors": ["tcrm.py:doDataDownload", "Utilities/datasets.py:loadDatasets"]}
{"id": "C109", "title": "Sampling a grid file returns the value of the nearest grid point", "statement": "SampleGrid returns the value stored at the grid point closest to the given longitude and latitude.", "quantifier": "every grid file, every point", "why_tests_cant": "Row order conventions and searches over arrays of any size.", "anchors": ["Utilities/grid.py:SampleGrid", "Utilities/grid.py:grdRead"]}
{"id": "C110", "title": "The lowest pressure listed for a station occurred at the station", "statement": "The minimum record of a station holds the lowest pressure that occurred at the station, under the name and time given.", "quantifier": "every sequence of time steps, every station", "why_tests_cant": "Histories of arbitrary length; stations in and out of the moving grid.", "anchors": ["Utilities/timeseries.py:Timeseries.extract", "Utilities/timeseries.py:Timeseries.shutdown"]}
{"id": "C111", "title": "The wind field of a storm turns with its motion", "statement": "Turning the direction of motion of a storm turns its surface wind field by the same angle, for each of the surface wind models. In the model with an explicit translation term the wind where the gradient wind vanishes points in the direction of motion, with the translation speed inside twice the radius of maximum wind when the storm is five times faster than it moves, and the effects of the motion on opposite sides of the storm cancel.", "quantifier": "for all latitudes, profiles, positions, storm speeds and directions", "why_tests_cant": "the directions are continuous; a sign slip in one of the angles is invisible for the two or three headings a test tries", "anchors": ["wind/windmodels.py:950-1155"]}
{"id": "C112", "title": "Interpolated tracks have the requested times", "statement": "Interpolating a track to a time step keeps its first and its last time, and consecutive new times are one time step apart.", "quantifier": "for all well-formed tracks, durations and time steps of at least 0.01 hours", "why_tests_cant": "whether the end is kept depends on how the duration relates to the time step; the tests use one track", "anchors": ["Evaluate/interpolateTracks.py:99-100"]}
{"id": "C113", "title": "Interpolated tracks agree with the records", "statement": "A new time that coincides with a record has the position, outer pressure and radius of maximum wind of the record; between two records the linearly interpolated values are the weighted means of the two. The interpolation succeeds for every track whose central pressures are all present.", "quantifier": "for all well-formed tracks, time steps, linear interpolation and both implementations of Akima's", "why_tests_cant": "there are unboundedly many combinations of record times and time steps, and four code paths by number of records and kind", "anchors": ["Evaluate/interpolateTracks.py:119-206", "Utilities/akima.py:129-170", "Utilities/akima.c:143-213"]}
{"id": "C114", "title": "Central pressures of interpolated tracks", "statement": "A new time that coincides with a record with a central pressure has this pressure; before the first and after the last central pressure it is missing; in between it stays within the range of the observed ones; missing central pressures never make the interpolation fail.", "quantifier": "for all well-formed tracks of at least four records and all patterns of missing values", "why_tests_cant": "the patterns of missing values are exponentially many and the slip only shows at the last usable time", "anchors": ["Evaluate/interpolateTracks.py:114", "Evaluate/interpolateTracks.py:163-203", "Evaluate/interpolateTracks.py:225-226"]}
{"id": "C115", "title": "Speed of interpolated tracks", "statement": "The speed between two new times is their distance divided by the time between them.", "quantifier": "for all well-formed tracks, time steps and distance functions", "why_tests_cant": "the slip only shows for durations that are not a multiple of the time step", "anchors": ["Evaluate/interpolateTracks.py:208-216"]}
{"id": "C116", "title": "Akima interpolation is a smooth curve through the data", "statement": "Akima interpolation passes through every data point, reproduces straight lines, parabolas on equally spaced points and straight runs of three points, and is differentiable at the data points, in the compiled and in the interpreted version.", "quantifier": "for all data with increasing positions and all sorted output positions within their range", "why_tests_cant": "continuity of the derivative is a statement about all nearby positions", "anchors": ["Utilities/akima.py:129-170", "Utilities/akima.c:72-215"]}
{"id": "C117", "title": "The two Akima versions are interchangeable", "statement": "The compiled extension and the Python fallback return the same values, and the extension reads only the data it is given.", "quantifier": "for all data and output positions", "why_tests_cant": "only one of the two versions is importable at a time, and they differ only at special data", "anchors": ["Utilities/akima.py:150-170", "Utilities/akima.c:143-213"]}
{"id": "C118", "title": "Autoregression coefficients are bounded, free of units and keep the variance", "statement": "For observations that are not all zero the autocorrelations returned by acf start with 1 and lie between -1 and 1, the coefficient alpha of GenerateStats lies between -1 and 1, phi is defined with alpha squared plus phi squared equal to 1, a change of the unit of the observations leaves both unchanged, and a simulation step with noise of mean square 1 uncorrelated with the anomaly keeps the mean square of the anomaly at 1.", "quantifier": "all series of observations, all scale factors, all finite joint distributions of anomaly and noise", "why_tests_cant": "unit tests compare a handful of series; boundedness and preservation of the variance are claims about every series and every distribution", "anchors": ["StatInterface/generateStats.py:27-41", "StatInterface/generateStats.py:217-249", "TrackGenerator/TrackGenerator.py:1069-1240"]}
{"id": "C119", "title": "The autoregression describes standardised anomalies", "statement": "The coefficient depends on the departures of the observations from their mean only and, for bearings, not on the choice of the zero direction, and the noise added at each step has mean square 1.", "quantifier": "all series of observations", "why_tests_cant": "unit tests fix the numbers the code produces for one series", "anchors": ["StatInterface/generateStats.py:27-41", "StatInterface/generateStats.py:234-246", "TrackGenerator/TrackGenerator.py:1102", "TrackGenerator/TrackGenerator.py:1660-1664", "Utilities/tcrandom.py:53-66"]}
{"id": "C120", "title": "Circular mean and standard deviation do not depend on the zero direction", "statement": "circmean of a nonempty sample is the only angle of one turn in the direction of the sum of the unit vectors, turning every sample turns it by the same angle, the order of the samples does not matter, samples that agree are their own mean; circstd lies between 0 and 1, is unchanged by turning the samples and is zero exactly when all samples point the same way.", "quantifier": "all nonempty samples of angles, all turns", "why_tests_cant": "tests use samples with a known mean; the claims concern every sample including those on both sides of north", "anchors": ["Utilities/stats.py:200-209", "Utilities/stats.py:223-231"]}
{"id": "C121", "title": "A saved track file gives the tracks back", "statement": "Saving tracks that hold at least the fields of the simulator with ncSaveTracks in the default time units and reading the file returns the tracks with records in the same order with the same dates, the same track identifiers and the same values of every field of the simulator; tracks with exactly these fields come back unchanged.", "quantifier": "all nonempty lists of tracks with one list of fields, with any numbers of records", "why_tests_cant": "a test writes and reads one file; the claim concerns all lists of tracks including empty tracks among them", "anchors": ["Utilities/track.py:209-265", "Utilities/track.py:267-335", "Utilities/track.py:402-420"]}
{"id": "C122", "title": "Track files can be written again, in other units and used for interpolation", "statement": "Tracks can be saved repeatedly and in any time units, a file holds the tracks of the last save, tracks with different fields can be saved together, and tracks read from a file can be interpolated.", "quantifier": "all lists of tracks, all time units", "why_tests_cant": "tests save each track once in the default units", "anchors": ["Utilities/track.py:267-335", "Utilities/track.py:209-265", "Evaluate/interpolateTracks.py:104-200", "Evaluate/interpolateTracks.py:301-325"]}
{"id": "C123", "title": "Saved statistics belong to the cells at their coordinates", "statement": "For every domain and cell size the statistics of all cells can be saved, loading returns them by cell number, and in the file the value of a cell stands at the latitude and longitude of the north west corner of that cell.", "quantifier": "all domains, cell sizes and statistics", "why_tests_cant": "tests check one domain; the agreement of reshaping, axis construction and cell numbering must hold for every domain also when its sides are not multiples of the cell size", "anchors": ["StatInterface/generateStats.py:149-161", "StatInterface/generateStats.py:384-483", "Utilities/stats.py:106-150"]}
{"id": "C124", "title": "Statistics files are checked against the domain and plots show every cell", "statement": "Loading statistics saved for another domain is refused, and the summary plot of the statistics covers every cell of the domain.", "quantifier": "all domains", "why_tests_cant": "tests load what they saved and do not plot", "anchors": ["StatInterface/generateStats.py:384-399", "StatInterface/generateStats.py:163-215"]}
{"id": "C125", "title": "The day of a genesis survives the statistics", "statement": "For a record of a year from 1900 whose leap years are those divisible by four, the day written to the genesis statistics is the day of a common year (29 February counting as 28 February), between 1 and 365; a cyclone simulated in a common year on that day starts on the recorded calendar day; every simulated genesis has a valid date and an hour between 0 and 23.", "quantifier": "all years, months, days and sampled values", "why_tests_cant": "tests use a few dates; leap years and centuries need all years", "anchors": ["Utilities/loadData.py:579-619", "DataProcess/DataProcess.py:802-838", "TrackGenerator/TrackGenerator.py:555", "TrackGenerator/TrackGenerator.py:602-616"]}
{"id": "C126", "title": "All years give the day of the calendar", "statement": "The day written to the genesis statistics is the day of a common year for every year of the record, simulated cyclones in leap years start on the recorded calendar day, and every record gives annual numbers.", "quantifier": "all years and records", "why_tests_cant": "tests use recent years", "anchors": ["Utilities/loadData.py:579-619", "DataProcess/DataProcess.py:783-838", "TrackGenerator/TrackGenerator.py:602-616"]}
{"id": "C127", "title": "Histograms count every genesis once", "statement": "The histogram of genesis days has 365 entries whose sum is the number of cyclones, entry d counting the cyclones that start on day d; the annual numbers cover every year from the first to the last of the record and count each cyclone in the year of its first record.", "quantifier": "all records", "why_tests_cant": "the closed last bin of numpy.histogram shows only at the edges", "anchors": ["DataProcess/DataProcess.py:783-838"]}
{"id": "C128", "title": "Pareto fits with shape zero have return levels", "statement": "A generalised Pareto fit that is accepted with shape zero gives the return levels of the exponential distribution.", "quantifier": "every threshold, scale, rate and return period", "why_tests_cant": "A fit that lands on the boundary of the accepted shapes is hard to provoke with test data.", "anchors": ["hazard/evd.py:gpdfit", "hazard/evd.py:gpdReturnLevel", "hazard/GPD.py:gpdReturnLevel"]}
{"id": "C129", "title": "Density and pressure maps use every record once", "statement": "If the grid spacing is more than 0.1 degree and divides the domain, the track density map counts every position of the closed domain in exactly one cell; the pressure maps use every given pressure of the half-open domain in exactly one cell and hold its lowest, highest, mean and median pressure, masked if there is none; the distribution of lowest pressures has integral one and is proportional to the number of tracks.", "quantifier": "every set of tracks, every domain and spacing", "why_tests_cant": "Positions on the edges between cells, arbitrary sets of tracks and cells.", "anchors": ["Evaluate/trackDensity.py:TrackDensity.calculate", "Evaluate/pressureDistribution.py:PressureDistribution.calculate", "Evaluate/pressureDistribution.py:PressureDistribution.calcMinPressure"]}
{"id": "C130", "title": "Density and pressure maps cover the domain and the years", "statement": "For every spacing the maps cover exactly the configured domain, the density and pressure maps use the same positions, the historical density is per year of the record, and every track that reaches the domain contributes its lowest pressure.", "quantifier": "every set of tracks, every domain and spacing", "why_tests_cant": "Depends on unusual combinations of domain, spacing and record.", "anchors": ["Evaluate/trackDensity.py:TrackDensity.historic", "Evaluate/trackDensity.py:TrackDensity.__init__", "Evaluate/pressureDistribution.py:PressureDistribution.calculate", "Evaluate/pressureDistribution.py:PressureDistribution.calcMinPressure", "Utilities/track.py:Track.inRegion"]}
{"id": "C131", "title": "Landfall rates are shares of the moves onto land", "statement": "With at least one landfall the landfall rates are not negative, sum to one, and the entry of a gate is the share of the segments from sea to land that meet that gate; tracks travelled backwards exchange landfall and offshore rates; a segment from outside the coast onto land is counted at a gate unless it passes the last gate, the closing line of the coast or runs along a gate.", "quantifier": "every list of gates, every set of tracks", "why_tests_cant": "All coasts and tracks of any length; the geometric argument needs a proof about polygons.", "anchors": ["Evaluate/landfallRates.py:LandfallRates.processTracks", "Utilities/Intersections.py:inLand", "Utilities/Intersections.py:Crossings.LineLine"]}
{"id": "C132", "title": "Landfall rates count every landfall once at its gate", "statement": "Every move onto land is counted exactly once, at the gate it passes, whatever the direction of the gates, and the mean rates over simulations are numbers.", "quantifier": "every list of gates, every set of tracks", "why_tests_cant": "Needs tracks through particular gates, vertices or without landfall.", "anchors": ["Evaluate/landfallRates.py:LandfallRates.processTracks", "Evaluate/landfallRates.py:LandfallRates.historic", "Evaluate/landfallRates.py:LandfallRates.calculateStats"]}
{"id": "C133", "title": "Landfall intensity tables describe the crossings of a gate", "statement": "A pressure between 0 and 1020 hPa has exactly one category, higher for lower pressure, with the thresholds of the table; the row of a gate holds the number of segments that cross it from its left to its right side and the mean and lowest central pressure of their first records; crossings in both directions add up to all crossings.", "quantifier": "every gate, every table of segments, every pressure", "why_tests_cant": "All positions of segments relative to a gate.", "anchors": ["Evaluate/landfallIntensity.py:readTracks", "Evaluate/landfallIntensity.py:isLeft", "Evaluate/landfallIntensity.py:isLandfall", "Evaluate/landfallIntensity.py:countCrossings"]}
{"id": "C134", "title": "Landfall intensity tables hold all categories", "statement": "The columns cat1 to cat5 hold the numbers of landfalls of category 1 to 5, every pressure has a category, and the evaluation by area counts the segments that enter it.", "quantifier": "every gate, every area, every table of segments", "why_tests_cant": "Needs landfalls of every category and areas crossed by tracks.", "anchors": ["Evaluate/landfallIntensity.py:countCrossings", "Evaluate/locationLandfallIntensity.py:isLandfall", "Evaluate/landfallIntensity.py:readTracks"]}
{"id": "C135", "title": "The climatological pressure is interpolated from the file", "statement": "For a file with 365 records whose rows start at the south pole and whose rows and columns divide 180 and 360 degrees, the pressure at a stored day and position is the stored value, for simulated and observed cyclones alike; a field linear in day, latitude and longitude is reproduced between the stored values; for no day and position is the spline evaluated outside the grid.", "quantifier": "every such file, every day and position, every interpolation that reproduces the stored values", "why_tests_cant": "All grids and positions; the index arithmetic of one test file hides shifts.", "anchors": ["Utilities/interp3d.py:interp3d", "TrackGenerator/TrackGenerator.py:SamplePressure.get_pressure", "Utilities/loadData.py:ltmPressure"]}
{"id": "C136", "title": "The climatological pressure joins up at Greenwich, the poles and the turn of the year", "statement": "The pressure is the same at 0 and 360 degrees, a file with rows at both poles or ordered from north to south gives the pressure of the requested latitude, and day n of the year has the pressure of record n.", "quantifier": "every file, every day and position", "why_tests_cant": "The tests use their own scale and offset instead of those of the callers.", "anchors": ["Utilities/interp3d.py:interp3d", "TrackGenerator/TrackGenerator.py:SamplePressure.get_pressure", "Utilities/loadData.py:ltmPressure"]}
{"id": "C137", "title": "A saved grid is read back unchanged", "statement": "If names are distinct and arrays have the sizes of their dimensions, saving succeeds, coordinates and values are read back unchanged, the fill value where nothing was written, and other files are not touched; saving succeeds only if every dictionary has all keys and every array as many axes as dimensions, and the first incomplete dimension raises KeyError.", "quantifier": "every number of dimensions and variables, every shape and content", "why_tests_cant": "Unbounded numbers of dimensions and variables.", "anchors": ["Utilities/nctools.py:ncSaveGrid", "Utilities/nctools.py:ncGetDims", "Utilities/nctools.py:ncGetData", "Utilities/nctools.py:ncCreateDim"]}
{"id": "C138", "title": "A failed save keeps the earlier file and documented arguments are accepted", "statement": "If saving a grid fails the earlier file of that name is unchanged; gatts=None is accepted; missing values are returned masked; ncCreateVar writes the given data; ncGetTimes finds the time variable or raises a documented error.", "quantifier": "every file and argument", "why_tests_cant": "The tests check the exceptions but not what they leave behind.", "anchors": ["Utilities/nctools.py:ncSaveGrid", "Utilities/nctools.py:ncGetData", "Utilities/nctools.py:ncCreateVar", "Utilities/nctools.py:ncGetTimes"]}
{"id": "C139", "title": "The bearing of a wind is the compass direction it blows from, and selects that octant's multiplier", "statement": "calculateBearing gives, for a wind of any positive speed from compass direction theta in [0,360), exactly theta; it is always in [0,360), and speed and bearing give the components back. The direction whose multiplier is applied is the octant within 22.5 degrees of theta (closed anticlockwise, open clockwise, across north).", "quantifier": "all speeds, directions and wind components", "why_tests_cant": "Continuous inputs; four quadrants, the wrap at north and the edges of the sectors.", "anchors": ["ProcessMultipliers/processMultipliers.py:calculateBearing", "ProcessMultipliers/processMultipliers.py:processMult"]}
{"id": "C140", "title": "The rasters handed to the wind multiplier step hold every value at its own place", "statement": "For a wind field on any regular grid, saved as a gust file and read by processMultipliers.main, the raster of region_wind has a value at a position exactly if the position lies in the cell around a grid point, and it is the value of that grid point. createRaster with a negative pixel height puts array[i][j] below and to the right of corner (x[j], y[i]). combineDirections writes the product of the three multipliers where all have data. Without a configured extent the output extent is the intersection of the span of the wind field and the image; a complete extent is kept. A path /vsis3/bucket/key splits into bucket, key and file name.", "quantifier": "all regular grids, positions and values; all multipliers with data; all extents of north-up images; all bucket names without slash and all keys", "why_tests_cant": "Flips and half cell shifts cancel only for particular orders of the latitudes; unit tests use constant fields and are skipped for processMult.", "anchors": ["ProcessMultipliers/processMultipliers.py:createRaster", "ProcessMultipliers/processMultipliers.py:main", "wind/__init__.py:saveGustToFile", "ProcessMultipliers/processMultipliers.py:combineDirections", "ProcessMultipliers/processMultipliers.py:computeOutputExtentIfInvalid", "ProcessMultipliers/processMultipliers.py:s3_path_segments_from_vsis3"]}
{"id": "C141", "title": "Local winds computed with the wind fields, layers without data and unusable extents", "statement": "calcLocalWindfield applies the multipliers to the wind of the same place; a cell without data in one of the multiplier layers has no data in the combined layer (or the missing layer counts as one); an incomplete or empty extent is reported; a malformed S3 path raises ValueError.", "quantifier": "all regular grids with at least two rows; all multipliers; all extents", "why_tests_cant": "The skipped unit test of processMult is the only one with a varying field; masked data are invisible in arrays without missing values.", "anchors": ["wind/__init__.py:calcLocalWindfield", "ProcessMultipliers/processMultipliers.py:combineDirections", "ProcessMultipliers/processMultipliers.py:computeOutputExtentIfInvalid", "ProcessMultipliers/processMultipliers.py:s3_path_segments_from_vsis3"]}
{"id": "C142", "title": "Track shape files hold every observation with its record", "statement": "Saving tracks as points, segments or dissolved lines writes every track: one point or one segment per observation, in order, at its position and with its own record, each segment ending where the next starts; a dissolved line of a track that does not cross Greenwich runs through all positions and carries the date of the first observation, the longest elapsed time, lowest pressure and highest wind. The category field is the pressure band of the observation and the other columns are unchanged. Reading a shape file returns the vertices of every shape under its own distinct key and the value of a named field for every record; shapes with one part are written with all points and their own record.", "quantifier": "all lists of tracks, positions, records and pressures; all shape files and keys", "why_tests_cant": "The claim ranges over tracks of any length and any number of tracks; tests write one small file and look at a few records.", "anchors": ["Utilities/tracks2shp.py:tracks2point", "Utilities/tracks2shp.py:tracks2line", "Utilities/tracks2shp.py:add_category", "Utilities/tracks2shp.py:recdropfields", "Utilities/shptools.py:shpGetVertices", "Utilities/shptools.py:shpGetField", "Utilities/shptools.py:shpWriteShapeFile"]}
{"id": "C143", "title": "Shapes keep their points and records when they are written", "statement": "A dissolved line that is split at Greenwich still goes through every position and is cut at every crossing in either direction; a shape with several parts is written as it was read; shpCreateFile writes every shape with its own values; the default format of shpSaveTrackFile saves the tracks; a list with an empty track can be written.", "quantifier": "all tracks, shapes and data", "why_tests_cant": "A crossing track or a multi-part shape is a rare input, and a missing vertex is invisible on a map.", "anchors": ["Utilities/tracks2shp.py:tracks2line", "Utilities/shptools.py:tracks2line", "Utilities/shptools.py:shpWriteShapeFile", "Utilities/shptools.py:shpCreateFile", "Utilities/shptools.py:parseData", "Utilities/shptools.py:shpSaveTrackFile"]}
{"id": "C144", "title": "Smoothed hazard maps are local averages of the map", "statement": "The smoothing kernel has positive weights that add up to one, are the same in all four directions and never grow with distance. A smoothed map stays within the range of the map, a constant map is unchanged, the sum and mean over the map are kept whatever the sizes of map and kernel, smoothing commutes with changes of units, sums and mirror images, and every map with a spacing of at most one degree is smoothed.", "quantifier": "all maps, kernel sizes, grid sizes and spacings up to one degree", "why_tests_cant": "Conservation at the reflected edges must hold for every map and kernel size; a test checks one array against stored numbers.", "anchors": ["Utilities/smooth.py:gaussKern", "Utilities/smooth.py:smooth", "PlotInterface/AutoPlotHazard.py:plotMap"]}
{"id": "C145", "title": "Smoothing works on coarse grids and keeps cells without data apart", "statement": "Hazard maps are smoothed on every grid; the value stored for cells without data does not influence the smoothed values of other cells; the directional kernels are returned for the eight wind directions.", "quantifier": "all spacings, masked maps and directions", "why_tests_cant": "Needs a coarse grid or missing cells together with the plotting option; a map with a contaminated rim looks plausible.", "anchors": ["Utilities/smooth.py:gaussKern", "PlotInterface/AutoPlotHazard.py:plotMap", "Utilities/convolve.py:getKernel"]}
{"id": "C146", "title": "Recorded wind fields are stored at their own time and place", "statement": "A wind field evolution file has one layer per time step handed over, in order and with its time; each layer holds the window's values in the cells nearest to its points and the fill value elsewhere; for a domain of whole cells in hundredths of a degree the file has the points of the regional grid, every window of that grid fits, and every value is stored at its own longitude and latitude.", "quantifier": "all domains, margins and steps in hundredths of a degree, all windows and sequences of time steps", "why_tests_cant": "Placement depends on the rounding of an affine transformation for every window of every grid; the doctest writes three windows.", "anchors": ["wind/writer.py:WriteFoliationCallback", "wind/__init__.py:WindfieldAroundTrack.regionalExtremes"]}
{"id": "C147", "title": "Wind fields can be recorded on every grid", "statement": "The evolution of the wind field can be recorded for every resolution and every domain, and the coordinates of the file are those of the values.", "quantifier": "all resolutions and domains", "why_tests_cant": "Needs a resolution or domain that is not a whole number of hundredths or cells; the tests use round numbers.", "anchors": ["wind/writer.py:WriteFoliationCallback", "wind/__init__.py:WindfieldAroundTrack.regionalExtremes"]}
{"id": "C148", "title": "Contour levels, graticules, figure grids and scale bars fit the map", "statement": "levels(max, min) for non-negative values spanning more than 0.7 of the power of ten below the maximum returns 8 to 14 levels: starting at the minimum, evenly spaced at a round step, below the maximum, the next one reaching it; argument order does not matter. The diverging colour map is chosen exactly for levels on both sides of zero reaching about equally far. Graticule lines are multiples of the spacing and enclose the map, with at most 15 spacings; n figures get a grid with no empty row or column and not more columns than rows; scale bars are 1, 2 or 5 times a power of ten and at least half the requested length.", "quantifier": "all value ranges, all extents up to 360 degrees, all numbers of figures, all lengths", "why_tests_cant": "tests check single ranges; the selection rules depend on the decade of the maximum", "anchors": ["PlotInterface/maps.py:29-68", "PlotInterface/maps.py:71-108", "PlotInterface/maps.py:187-205", "PlotInterface/maps.py:285-290", "PlotInterface/curves.py:110-118", "PlotInterface/scalebar.py:119-146"]}
{"id": "C149", "title": "Every range of values, set of figures and map extent can be drawn", "statement": "Contour levels exist for any two different values, their number is bounded, a figure without subfigures is drawn empty, and every map gets a scale bar.", "quantifier": "all value ranges, numbers of figures, map widths", "why_tests_cant": "tests use wind speeds starting at zero; the failing ranges are pressures and negative data", "anchors": ["PlotInterface/maps.py:29-68", "PlotInterface/maps.py:285-290", "PlotInterface/scalebar.py:119-146"]}
{"id": "C150", "title": "Kernel density estimates of the statistics", "statement": "The density of periodic data is the density wrapped around the period, equal at its two ends; densities are never negative; the bandwidth is independent of the position of the data, proportional to their scale and positive exactly if two observations differ, so a density of plain or angular data exists exactly then and one of periodic data always. The genesis density is saved with one row per latitude (northernmost first) and one column per longitude from exactly the observations in the domain. Range ends cover the wanted interval by less than a step, and the annual probability falls with the return period, lies in (0, 1) and never exceeds the rate.", "quantifier": "all data, kernels of bounded reach, bandwidths, domains, steps and return periods", "why_tests_cant": "tests compare single densities with stored numbers; the claims hold for any kernel and any data", "anchors": ["StatInterface/KDEParameters.py:71-158", "StatInterface/KDEParameters.py:229-250", "StatInterface/KDEOrigin.py:66-194", "Utilities/stats.py:160-184", "Utilities/stats.py:278-281", "Utilities/stats.py:316-337"]}
{"id": "C151", "title": "Bearings, genesis days and circular densities of any data", "statement": "Bearings are smoothed across north, cells whose storms all head the same way get a distribution, the genesis day table covers days 1 to 365 for every step, the genesis day distribution is that of the given file, the circular density is determined by the observations and sums to one, and the genesis density of given positions can be saved.", "quantifier": "all data, kernels, steps and memory contents", "why_tests_cant": "tests use spread-out data away from north, a step of one day and files; uninitialised memory is often zero", "anchors": ["StatInterface/KDEParameters.py:136-227", "StatInterface/circularKDE.py:24-50", "StatInterface/KDEOrigin.py:84-194"]}
{"id": "C152", "title": "Progress messages, timing, directories and event maps", "statement": "While work advances the progress bar shows increasing percentages, each one reached exactly once (at most 101 messages), always fills its width, and estimates the remaining time rightly for work at constant speed; simple messages number at most 19 below 99 per cent. Elapsed times split into hours, minutes and seconds. Unless a file is in the way all output directories exist afterwards, nothing existing is touched and nothing else created, and repeating it changes nothing. The event map shows exactly the grid points in the window at their own positions, the map of a single cyclone read from text is its own, and impact tables of different events have different names.", "quantifier": "all sequences of updates, times, file systems, grids, windows and event identifiers", "why_tests_cant": "tests do not check terminal output and run on fresh directories; the claims range over every sequence of updates and file system", "anchors": ["Utilities/progressbar.py:18-93", "tcrm.py:61-79", "tcrm.py:143-174", "tcevent.py:61-90", "tcevent.py:110-170", "impact/__init__.py:46-66"]}
{"id": "C153", "title": "Settings, parallel start and plots of any event", "statement": "ProgressBar=False switches the bar off, simple messages come five per cent apart, several processes can prepare the directories of an event together, the event map shows an event of the input whatever its format, and an Impact section alone triggers the impact calculation.", "quantifier": "all settings, schedules, input files and configurations", "why_tests_cant": "tests run one process on one text file with existing directories", "anchors": ["tcevent.py:61-90", "tcevent.py:110-138", "tcevent.py:196-198", "tcrm.py:120", "Utilities/progressbar.py:76-93", "impact/__init__.py:68-77"]}
{"id": "C154", "title": "Dew point, wet bulb and relative humidity conversions agree with each other", "statement": "Dew point and vapour pressure conversions invert each other in kPa, hPa and Pa; saturation pressure increases with temperature; the relative humidity from a dew point is a percentage exactly when the dew point does not exceed the temperature; the dew point of a relative humidity in (0, 100] gives that humidity back; air pressure falls with elevation; a wet bulb reading gives a vapour pressure below saturation that rises with the reading; the iterative search for the wet bulb temperature always ends and the temperature found has the vapour pressure of the dew point to 0.05 hPa.", "quantifier": "all temperatures above -237.3 C (below 390 C for the wet bulb), pressures, elevations and humidities", "why_tests_cant": "tests check a handful of values; termination of the search and monotonicity concern all real inputs", "anchors": ["Utilities/metutils.py:21-162", "Utilities/metutils.py:224-263", "Utilities/metutils.py:502-553"]}
{"id": "C155", "title": "Humidity conversions in the documented units and for dry air", "statement": "The relative humidity of a wet bulb reading is the ratio of vapour to saturation pressure; dew points exist for all humidities and are in the documented units; mercury units convert back and forth.", "quantifier": "all wet bulb readings, humidities and units", "why_tests_cant": "the documented examples are not run as tests", "anchors": ["Utilities/metutils.py:42-55", "Utilities/metutils.py:194-222", "Utilities/metutils.py:244-263", "Utilities/metutils.py:479-490"]}
{"id": "C156", "title": "Estimated winds, extremes, ages and columns of observed cyclones", "statement": "Every record of an observed cyclone gets one wind estimate that is zero where a pressure is missing, positive for every pressure deficit up to 215 hPa within 60 degrees of the equator, proportional to the gust factor, the same in both hemispheres and independent of the other cyclones in the table; the lowest pressure and strongest wind of a track are those among the non-missing values; steps between whole-hour ages are their differences; the day used for the climatology is within 105 minutes of the record; every column that is not skipped is read under its own name.", "quantifier": "all tables, records, gust factors, missing values and column lists", "why_tests_cant": "the tests use single tracks of one hemisphere with all columns present", "anchors": ["Utilities/loadData.py:205-283", "Utilities/loadData.py:468-501", "Utilities/loadData.py:556-576", "Utilities/loadData.py:755-791", "Utilities/columns.py:16-53"]}
{"id": "C157", "title": "Tables in other units, without dates or with one record", "statement": "Winds exist exactly for pressure deficits; environmental pressures are converted like central ones; the time of day of a record is kept; tables with separate date columns and tables of one record can be loaded.", "quantifier": "all tables", "why_tests_cant": "the tests pass dictionaries instead of the arrays read from files", "anchors": ["Utilities/loadData.py:264-282", "Utilities/loadData.py:428-460", "Utilities/loadData.py:556-576", "Utilities/loadData.py:861-935"]}
{"id": "C158", "title": "Places, return levels and distances held in the database are those of the stations and the nearest grid cells", "statement": "Every point of a geographic station file becomes exactly one place with its record, latitude and a longitude in [0,360), files in map coordinates and empty files being refused. A run's table holds each identifier once: the places in its domain and earlier places not replaced. For a domain with longitudes in [0,360) a station is used exactly when it lies in the domain, however its longitude is written. The return levels listed for a place are, year by year in ascending order, those of the grid cell nearest in longitude and latitude; the records of a place are all its rows, weakest first. The distance between a track and a place is 111.1251 km per degree times the distance to the nearest point of the line through the track's positions, is zero exactly on that line, and along a meridian is proportional to the great-circle distance used elsewhere.", "quantifier": "all station files, domains, earlier tables, hazard grids with increasing axes, event tables, tracks of any length and places", "why_tests_cant": "Tests use one station file and one small grid; the correspondence of places, cells and rows is for every file, domain, grid and table, and the distance claim is a minimum over a continuum of points.", "anchors": ["database/__init__.py:214-259", "database/__init__.py:486-547", "database/__init__.py:692-819", "database/__init__.py:98-125", "database/queries.py:74-96", "database/queries.py:202-230", "database/definitions.py:35-72", "Utilities/track.py:138-160"]}
{"id": "C159", "title": "The database follows the domain, the station file and the earth", "statement": "Stations inside a domain given with western (negative) longitudes are selected; a smaller domain leaves only its own places; a changed station file is read; updating the database again does not duplicate return levels; events can be found by track file name; track distances are close to great-circle distances away from meridians and across Greenwich.", "quantifier": "all domains, runs and places", "why_tests_cant": "Each failure needs a combination (western domain, second run, high latitude, crossing of Greenwich) no unit test exercises.", "anchors": ["database/__init__.py:214-259", "database/__init__.py:486-547", "database/__init__.py:692-819", "database/__init__.py:98-125", "database/queries.py:74-96", "database/queries.py:202-230", "database/definitions.py:35-72", "Utilities/track.py:138-160"]}
{"id": "C160", "title": "Template files are filled in and processed files archived without loss", "statement": "Filling in a template replaces every placeholder {name} that has a value by that value exactly once, keeps every other character, and does not depend on the order of the values. An archived file is found unchanged under its archive name (name, time of change, extension) and nowhere else; a failed move changes nothing; other files are untouched. Archive names coincide only for files of the same name changed at the same formatted time, and archiving any number of files with different archive names loses no contents.", "quantifier": "all templates, placeholder names without braces, values without braces or backslashes; all file systems, file names, dates and numbers of files", "why_tests_cant": "Tests fill in one line and move one file; the claims are about every template, every order and every sequence of moves.", "anchors": ["Utilities/template.py:13-48", "Utilities/process.py:190-311"]}
{"id": "C161", "title": "Any value can be filled in and any file archived", "statement": "Values may contain placeholders, backslashes and names may be numbers; files of one name changed in the same minute are both kept; time stamps can be switched off; files stay where they are when no archive directory is set; failures are reported as documented.", "quantifier": "all values, names and files", "why_tests_cant": "Each needs an unusual value or a coincidence of names that unit tests do not try.", "anchors": ["Utilities/template.py:13-48", "Utilities/process.py:190-311"]}
{"id": "C162", "title": "The radius to maximum winds follows its law and the fit is the least squares one", "statement": "The radius is positive and its logarithm is the documented linear function; it is the same in both hemispheres, decreases strictly with the pressure deficit, increases strictly with the absolute latitude, and the random term is a factor; three coefficients are used as given and any other number gives the default. The fitted slopes are the unique minimum of the sum of squares, and radii that follow the law without constant and scatter give exactly its slopes and no scatter.", "quantifier": "all deficits, latitudes, deviates, coefficients and lists of observations with independent columns", "why_tests_cant": "Monotonicity and optimality are statements about all arguments and all competing slopes.", "anchors": ["TrackGenerator/trackSize.py:21-94"]}
{"id": "C163", "title": "The fitted radius law is the documented one", "statement": "Observations following the documented law with a constant give its coefficients; the fitted list can be passed to rmax; units of the radii only change the constant.", "quantifier": "all lists of observations", "why_tests_cant": "The tests compare with stored numbers; the missing constant is only visible against the documented law.", "anchors": ["TrackGenerator/trackSize.py:21-94"]}
{"id": "C164", "title": "The parts of a run fit together", "statement": "A run of all parts from an empty output directory succeeds exactly if the output format is text, the input has no age column and more than one year, a radius column is there if its distribution is asked for, and at least one cyclone is simulated; with these conditions it also succeeds in a directory with any earlier files. No file is ever deleted. After such a run any selection of the parts can be run alone with other settings. The tracks of a run with input processing and statistics come from its own input only, unless an old radius distribution is lying there, and so does the hazard if there are no old tracks and wind fields. Every track of every track file gets a wind field.", "quantifier": "all settings, numbers of cyclones, earlier contents of the directory and selections of parts", "why_tests_cant": "The parts communicate through files; tests run single parts with prepared files.", "anchors": ["tcrm.py:177-580", "DataProcess/DataProcess.py:84-345", "StatInterface/StatInterface.py:80-280", "TrackGenerator/TrackGenerator.py:309-440", "TrackGenerator/TrackGenerator.py:1748-1895", "wind/__init__.py:400-414", "wind/__init__.py:964-966", "hazard/__init__.py:880-893"]}
{"id": "C165", "title": "A run depends only on its own settings and input", "statement": "Repeating a run, changing the number of simulations or switching off the radius distribution gives the result of a run in an empty directory; every documented output format, age columns, input of one year and simulations without cyclones work.", "quantifier": "all settings and earlier contents", "why_tests_cant": "Needs two runs in the same output directory.", "anchors": ["tcrm.py:501-580", "wind/__init__.py:400-414", "wind/__init__.py:534-561", "DataProcess/DataProcess.py:221-269", "DataProcess/DataProcess.py:785-803", "TrackGenerator/TrackGenerator.py:382-391"]}
{"id": "C166", "title": "Return levels are computed point by point from the wind fields", "statement": "At every grid point of the region the return levels are the fit of the winds of the wind field files at that point: the largest wind of each simulated year (zero for a year without cyclones) for GEV, all wind fields for GPD, power and emp, and zeros where there is never any wind. Neither the size of the tiles nor the order in which the directory lists the files (apart from which is first) makes a difference, in the values or in whether the run succeeds; a cyclone without wind at a point does not change its annual maxima; the run succeeds exactly when the distribution is one of the four known, every file used covers the region and every point can be fitted.", "quantifier": "for all directories of wind field files, regions, tile sizes, numbers of simulations, distributions and fit functions", "why_tests_cant": "tests load a few files with one tile size; independence from tiling and order and the exact success condition range over all directories and tilings", "anchors": ["hazard/__init__.py:44-61,264-328,579-794,865-949,977-1033"]}
{"id": "C167", "title": "Return levels use the wind fields of the run, on their own grid, as configured", "statement": "Files that are not wind fields have no effect, all distributions use the wind fields of the configured number of simulations, wind fields on another grid are refused, distribution names may be written in any case, and the recorded percentages of the confidence limits are the ones used.", "quantifier": "for all directories, distributions and settings", "why_tests_cant": "needs directories with left-over files, other grids or settings no test varies", "anchors": ["hazard/__init__.py:44-61,513-545,579-794,822-823,865-949"]}
{"id": "C168", "title": "Values reach the statistics with the position they belong to", "statement": "In the files of processed observations every value stands with the right position: each record's value with its own position, the pressures, radii and days of first records with the first position of the same cyclone, and the initial bearings and speeds (of the second record) with the first position of the same cyclone, leaving out cyclones with one record. With positions of at most two decimals the sample of a cell consists of exactly the values, to two decimals, of the records in the cell that are not missing. The rate of change of speed is the difference of consecutive speeds over the time step where both are usable and missing otherwise; winds above 200 become missing; the land flag is set exactly where the mask is positive.", "quantifier": "for all tables of observed cyclones with two or more rows in the file concerned, masks, values and rounding of the values", "why_tests_cant": "tests compare a few files; the alignment of ten pairs of files and the effect of masks and missing codes range over all tables", "anchors": ["DataProcess/DataProcess.py:357-420,519-557,645-738", "Utilities/files.py:77-117", "StatInterface/GenerateDistributions.py:138-165,265-273", "Utilities/stats.py:233-240"]}
{"id": "C169", "title": "Files of processed observations hold the observations as they are", "statement": "Writing the observations to files changes no statistics: records stay in the cell of their position, any number of cyclones will do, every cyclone counted is a point of genesis, missing winds are marked as missing and small rates of change stay.", "quantifier": "for all tables of observed cyclones", "why_tests_cant": "needs positions close to the border of a cell, a table with one cyclone, cyclones with one record or a table without winds", "anchors": ["DataProcess/DataProcess.py:285-297,357-420,688-702", "Utilities/files.py:77-117", "StatInterface/KDEOrigin.py:90"]}
{"id": "C170", "title": "Finite-difference vorticity: exact for rigid rotation and gradients, symmetric, and with known error on the sphere", "statement": "vorticity.deriv gives the slope of a linear function at every point including the ends for any strictly monotonic spacing, is bounded by the Lipschitz constant of the data, does not depend on the order of the points, and is missing exactly where a neighbour it uses is missing. The Cartesian curl of a discrete gradient is 0 and that of a rigid rotation 2w at every point of every rectangular grid, and curls add. The relative vorticity is given exactly for latitudes up to 88 degrees, depends on differences of longitude only, changes sign for the mirror image in the other hemisphere (the absolute one too), and for air turning with the earth is the true value times sin(2h)/(2h) for latitudes h apart; the absolute vorticity of air at rest is the Coriolis parameter.", "quantifier": "for all strictly monotonic coordinates, all winds and all grid points", "why_tests_cant": "the identities hold for every spacing and every field, of which tests try a few examples; there are no tests of this module", "anchors": ["Utilities/vorticity.py:8-187", "Utilities/vorticity.py:603-705", "Utilities/vorticity.py:788-801"]}
{"id": "C171", "title": "Vorticity at the edges, across the date line and without missing values", "statement": "The derivatives at the edges of the grid are as accurate as inside, longitudes passing from 360 to 0 are treated as neighbours, a grid around the globe is closed, missing=None can be given as documented, and a single row or column gives a value.", "quantifier": "for all grids", "why_tests_cant": "holds for no grid of the described kind; tests would need one of each", "anchors": ["Utilities/vorticity.py:8-187", "Utilities/vorticity.py:603-785"]}
{"id": "C172", "title": "Hazard curve and statistical figures show the numbers they claim", "statement": "For N simulated years the empirical points of a hazard curve are the N largest of the place's daily values (its records and a zero for every other day), the j-th largest at an interval within a day's share of N/j, placed as the empirical fit places them; the fitted curve is that of the nearest cell in the configured unit (m/s, mi/h, kts, kph), below the top of the axis; every place with a level gets its own file; percentiles are monotone, bounded by the sample and agree with the median; quantile figures of equal samples lie on the diagonal; axis limits of regression figures keep at least half the values; lagged figures pair consecutive values", "quantifier": "all numbers of years, records, grids, places, samples", "why_tests_cant": "tests draw one figure and compare nothing, and the property is about every sample size", "anchors": ["PlotInterface/AutoPlotHazard.py:48-75", "PlotInterface/AutoPlotHazard.py:190-258", "PlotInterface/curves.py:336-430", "PlotInterface/figures.py:121-160", "PlotInterface/figures.py:207-330"]}
{"id": "C173", "title": "Every mark of a hazard curve or regression figure means what its label says", "statement": "The empirical points of a hazard curve are events in the unit of the axis, the confidence range is shown when it was calculated, everything lies inside the figure, only places inside the grid are drawn, one place cannot prevent the figures of others, and the axes of lagged figures carry the times of their values within one storm", "quantifier": "all records, units, ranges, places", "why_tests_cant": "needs records, units and places a test would not choose", "anchors": ["PlotInterface/AutoPlotHazard.py:190-258", "PlotInterface/curves.py:385-403", "PlotInterface/figures.py:278-290", "Utilities/metutils.py:377-477"]}
{"id": "C174", "title": "Gradient wind, pressure profile and maximum wind belong together", "statement": "Outside the radius of maximum winds the wind of the Holland profile balances the slope of the Holland pressure profile and the Coriolis force for air of 1.15 kg/m3, as does the outer wind of the double profile in the northern hemisphere; the maximum wind of a profile is the one the vmax function gives for the same pressures; the shape parameters of the Powell and Willoughby profiles are those of the published formulas, and Powell's never grows with latitude or size.", "quantifier": "all storms, radii, shape parameters and pressures", "why_tests_cant": "The balance relates two modules through a derivative, at every radius.", "anchors": ["wind/windmodels.py:155-175", "wind/windmodels.py:311-464", "wind/windmodels.py:661-719", "wind/windmodels.py:808-817", "PressureInterface/pressureProfile.py:146-220", "Utilities/vmax.py:59-119"]}
{"id": "C175", "title": "The wind balances the pressure everywhere", "statement": "The balance of pressure slope, centrifugal and Coriolis force holds at the radius of maximum winds and, for the double profile, in both hemispheres.", "quantifier": "all storms and radii", "why_tests_cant": "It holds at some radii and in one hemisphere only.", "anchors": ["wind/windmodels.py:311-464", "wind/windmodels.py:481-488", "PressureInterface/pressureProfile.py:146-220"]}
{"id": "C176", "title": "Kepert's surface wind is the bottom of a boundary layer", "statement": "At every point where gradient wind, absolute vorticity and Coriolis parameter have one sign, the wind of the Kepert field is the wind at the ground of a flow that satisfies the linear boundary layer equations of the theory it cites, with diffusivity 50 and drag coefficient 0.002, in either hemisphere and for moving storms, and that becomes the gradient wind high above; the motion added is that of the storm, less for storms fast compared with their wind and fading beyond twice the radius of maximum winds.", "quantifier": "all latitudes, winds, vorticities, radii, directions and motions", "why_tests_cant": "A differential equation with boundary conditions, for every direction and height.", "anchors": ["wind/windmodels.py:1054-1155"]}
{"id": "C177", "title": "The scale bar of a map is as long as its label says", "statement": "A scale bar that is drawn starts at its location, runs in the direction of its angle, and the distance between its ends is at least the number beside it in its unit and longer by no more than the tolerance; the label stands beside its middle; whenever the distance along the line changes continuously and goes beyond the length, the bar is drawn; negative lengths and tolerances are refused; without a length the bar is 1, 2 or 5 times a power of ten kilometres, between 4/45 and 4/15 of the width of a map at least five kilometres wide.", "quantifier": "all distance functions, lengths, angles, tolerances and maps", "why_tests_cant": "the search must end with the right point for every continuous distance function, not for a sample of maps", "anchors": ["PlotInterface/scalebar.py:15-217"]}
{"id": "C178", "title": "A scale bar can be drawn on every map", "statement": "The search for the end of the bar ends for every positive length on every map, maps of any size get a bar without a length being given, in any unit, and lengths that are not positive are refused.", "quantifier": "all maps, lengths and units", "why_tests_cant": "an endless loop for some lengths or maps shows only on those maps", "anchors": ["PlotInterface/scalebar.py:15-217"]}
{"id": "C179", "title": "The evaluation maps hold each cell's mean and range over the simulations", "statement": "The genesis density and track density files hold, at each latitude and longitude, the historical value of that cell, the mean of the simulations' values there, and a lower and upper value: the lower is not above the upper, both lie within the values of the simulations, and at most about one simulation in twenty lies below the lower or above the upper one. What is stored does not depend on the order in which the simulations were finished. The genesis density of a set of tracks is the density of the first positions that lie in the domain, evaluated at the longitude and latitude written beside it.", "quantifier": "For all domains, historical maps, track sets, numbers of simulations and orders of completion.", "why_tests_cant": "Tests compare single runs; the order of completion, the orientation of the arrays and the share of simulations outside the range are statements about every set of simulations.", "anchors": ["Evaluate/genesisDensity.py", "Evaluate/trackDensity.py"]}
{"id": "C180", "title": "Evaluation maps exist for every run and have the units they state", "statement": "The evaluation writes its maps for any number of simulations and storms, the mean lies between the lower and upper values, and the genesis density and longitude crossing rates are numbers per year as the files state.", "quantifier": "For all numbers of simulations, storms, years and crossings.", "why_tests_cant": "A test run with many simulations and storms hides the missing maps of short runs, and the units of a stored number are not visible in a single run.", "anchors": ["Evaluate/genesisDensity.py", "Evaluate/trackDensity.py", "Evaluate/longitudeCrossing.py"]}
{"id": "C181", "title": "Power law return levels are those of the fitted curve on the windy days", "statement": "The power law fit uses exactly the daily winds above the mean of the windy days, each with its return period from its rank among all days of the simulated years. It returns one level per requested interval: missing values when the fit has fewer than three points or does not converge, otherwise the fitted curve at the interval. With positive scale and negative shape levels increase with the interval and stay below the location, and are positive from one year on when the scale is below the location.", "quantifier": "For all records, numbers of years, intervals and fits.", "why_tests_cant": "Which days enter the fit and with what return period depends on every value and its rank; tests compare a few fitted numbers.", "anchors": ["hazard/evd.py:334-394"]}
{"id": "C182", "title": "Power law levels are winds and respect the stated minimum of records", "statement": "The fitted levels are never negative, fewer than the minimum number of records gives missing values, any number of records is fitted, and the distribution objects of the module give the same levels as its functions.", "quantifier": "For all records, numbers of years and intervals.", "why_tests_cant": "A fit to a typical record gives positive levels; the objects are never run by the tests.", "anchors": ["hazard/evd.py:334-394", "hazard/evd.py:44-255"]}
{"id": "C183", "title": "Each step of a generated cyclone follows the autoregression of the cell it moves into", "statement": "At each time step the cyclone moves with its last speed and bearing. In the cell and over the surface (sea or land) it reaches, three random numbers, for pressure, bearing and speed in this order, advance the three anomalies by the autoregression coefficients of that cell; from the second step on, the rate of pressure change, the bearing and the speed are the mean of the cell plus the anomaly times its deviation. Over the sea the pressure follows its rate unless that would take it below the floor of the cell. While the cyclone stays in one cell the anomalies have the closed form of an autoregression started at zero, so bounded random numbers keep them bounded.", "quantifier": "For all statistics, random streams, masks, domains, start values and lengths of life.", "why_tests_cant": "A test of one step or of a few random tracks cannot tell the closed form over any number of steps, the order of the random numbers, or that the floor holds for every state.", "anchors": ["TrackGenerator/TrackGenerator.py:936-1067", "TrackGenerator/TrackGenerator.py:1069-1195"]}
{"id": "C184", "title": "Dumped cell statistics describe the sample of the cell", "statement": "For every cell and for speed, pressure and pressure change, over the sea and over land, the variables Xmu, Xsig and Xmin of the file that dumpAllCellCoefficients writes carry the arithmetic mean, the population standard deviation and the smallest value of the sample of the cell, all in the same units, so that the minimum never exceeds the mean; Xalpha is the lag one autocorrelation of the sample without units; the file of each parameter written by GenerateStats.save carries each statistic under its own name.", "quantifier": "all samples of a cell (any values, any size), all four parameters, sea and land", "why_tests_cant": "Tests can only look at some cells of some data set; a variable filled with the wrong coefficient looks plausible.", "anchors": ["TrackGenerator/TrackGenerator.py:1258-1636 dumpAllCellCoefficients", "StatInterface/generateStats.py:217-250 calculate", "StatInterface/generateStats.py:400-483 save"]}
{"id": "C185", "title": "Statistics of the bearing are in the units the files state", "statement": "The numbers in the files of the cell statistics are in the units that the files name: bearing statistics in degrees, pressure statistics in hPa.", "quantifier": "all samples of a cell", "why_tests_cant": "The values are only ever read back by code that knows the true units; a test of the round trip passes whatever the label says.", "anchors": ["TrackGenerator/TrackGenerator.py:1380-1460", "StatInterface/generateStats.py:231-236 calculate", "StatInterface/generateStats.py:425-476 save"]}
{"id": "C186", "title": "UTM letter of a latitude", "statement": "The UTM letter of a latitude from 80 degrees south to 84 degrees north is that of its band of eight degrees, counted from C in the south without I and O, closed to the south, the last band X reaching to 84 degrees north inclusive; exactly the other latitudes get Z.", "quantifier": "all latitudes", "why_tests_cant": "Twenty bands with closed and open ends, a continuum of latitudes; a gap between two bands is hit by no sampled latitude.", "anchors": ["Utilities/lat_long_UTM_conversion.py:157-184 _UTMLetterDesignator"]}
{"id": "C187", "title": "Grids can be saved in UTM coordinates", "statement": "grdSave with coords='UTM' writes a grid file whose corner is the UTM position of the south west corner, and LLtoUTM and UTMtoLL convert every position.", "quantifier": "all grids, all positions", "why_tests_cant": "The claim concerns every call; that no call at all succeeds follows from the evaluation of one line for all arguments.", "anchors": ["Utilities/lat_long_UTM_conversion.py:75-154 LLtoUTM", "Utilities/lat_long_UTM_conversion.py:191-282 UTMtoLL", "Utilities/grid.py:36-103 grdSave"]}
{"id": "C188", "title": "The statistical figures of the input data show the pairs, angles and standardised values they stand for", "statement": "A lagged figure of the input data (pressure, rates, bearing, speed) has exactly one point for each two consecutive records whose values are both present, in the order of the records, with the later value on the axis labelled t; if the first value of each cyclone is missing, as speeds, bearings and rates are, no point joins two cyclones; in the polar figure a bearing that is a multiple of 45 degrees is drawn at the angle that carries this bearing as its label, between 0 and 360; the standardised values of the quantile figure have mean 0 and standard deviation 1; the differences of longitudes are exactly those of consecutive records of one cyclone.", "quantifier": "for all lists of values and indicators, all bearings and all samples with a standard deviation other than zero", "why_tests_cant": "Tests of plots compare nothing but the absence of exceptions; that no pair is lost, reversed or joined concerns lists of every length and every placement of missing values.", "anchors": ["PlotInterface/plotStats.py:82-112 (scatterHistogram)", "PlotInterface/plotStats.py:206-218 (plotSpeedBear)", "PlotInterface/plotStats.py:228-248 (quantile)", "PlotInterface/plotStats.py:250-331", "tcrm.py:263-345 (doDataPlotting)"]}
{"id": "C189", "title": "Every statistical figure of the input data shows what its label says", "statement": "The minimum pressure figure counts the lowest pressure of each cyclone in the data; the lagged pressure figure pairs pressures of one cyclone; the figure of longitude differences carries the time of the values on its axes and treats a crossing of the 0/360 meridian alike in both directions; the correlation shown with speed and bearing is that of the points drawn; bearings are drawn at distinct places where they differ in direction.", "quantifier": "for all records of cyclones", "why_tests_cant": "Whether a label names the value on its axis is not visible to tests that only draw; the last record and the last cyclone matter for every data set.", "anchors": ["PlotInterface/plotStats.py:166-183 (minPressureHist)", "PlotInterface/plotStats.py:206-218 (plotSpeedBear)", "PlotInterface/plotStats.py:250-310", "PlotInterface/plotStats.py:383-403 (plotLonLat)"]}
{"id": "C190", "title": "Circular statistics over a range, the size distribution and the genesis potential have their defining properties", "statement": "The circular mean over a range lies in the range, is the common value of equal samples and follows a change of units; the circular variance is the square of the circular standard deviation, at most the square of the range over 2 pi, and zero exactly for samples that differ by whole turns; the fallback size distribution has the whole numbers below the largest radius, positive densities with one mode at exp(mu - sig^2) and a cumulative distribution that is the normalised running sum, increases strictly and ends at exactly 1; the genesis potential ignores the sign of the vorticity, grows with vorticity, humidity and potential intensity, falls with shear and is 1 at its reference values.", "quantifier": "for all samples and ranges with low < high, all positive means and deviations, all largest radii above 2, all positive humidities and intensities and non-negative shears", "why_tests_cant": "Monotonicity, exact ends and units concern all real parameters; tests compare a few stored values with tolerances.", "anchors": ["Utilities/stats.py:46-59 (cdf)", "Utilities/stats.py:187-196 (rMaxDist)", "Utilities/stats.py:200-229 (circmean, circvar, circstd)", "Utilities/metutils.py:492-500 (genesisPotential)", "TrackGenerator/TrackGenerator.py:383-392"]}
{"id": "C191", "title": "The circular standard deviation of samples close together is their standard deviation", "statement": "For bearings close together the circular standard deviation that is stored as the spread of the bearings of a cell (in radians) agrees with their ordinary standard deviation.", "quantifier": "for all pairs of bearings at the same distance from their mean", "why_tests_cant": "The deviation is a constant factor, not an error: a stored expected value computed by the same function hides it.", "anchors": ["Utilities/stats.py:221-229 (circstd)", "StatInterface/generateStats.py:237-239"]}
{"id": "C192", "title": "The scale bar of a map is as long as its label says, within the tolerance, and has a round length that suits the map", "statement": "A scale bar that is drawn is never shorter than its label and longer by at most the tolerance (plus 1e-8 m); on every map on which the distance from the start of the bar grows at a limited rate and reaches the length, the search for its end finishes with such a bar, whatever the tolerance; errors are raised only for lengths or tolerances that are not positive; when no length is given, for every map at least 5 km wide the length is 1, 2 or 5 times a power of ten of kilometres and between 4/45 and 4/15 of the width of the map.", "quantifier": "for all distance functions, lengths, tolerances and widths below 5e33 m", "why_tests_cant": "Termination and the invariants of the two searches concern every distance function; a test draws one map.", "anchors": ["PlotInterface/scalebar.py:15-45 (_upper_bound)", "PlotInterface/scalebar.py:48-86 (_distance_along_line)", "PlotInterface/scalebar.py:89-117", "PlotInterface/scalebar.py:120-142 (_setlength)"]}
{"id": "C193", "title": "A scale bar is drawn for every map", "statement": "For every map and every positive length drawing the scale bar finishes.", "quantifier": "for all maps (distance functions) and widths", "why_tests_cant": "Loops that do not end cannot be observed by a test, which would only time out.", "anchors": ["PlotInterface/scalebar.py:38-45", "PlotInterface/scalebar.py:71-86", "PlotInterface/scalebar.py:135-141"]}
{"id": "C194", "title": "An option read through the helper has the value the file gives it", "statement": "After a process has read a configuration file, cnfGetIniValue returns for every option set in the file (or, if not there, in the built-in defaults) the text for a text default, the truth value or number the text spells for a truth value or number, the evaluated text for a dictionary, and the default itself for an option set nowhere, whatever was asked before and whatever the case of the option name; a text that does not spell the kind of value asked for is a ValueError.", "quantifier": "for all files, built-in defaults, sequences of calls, options and defaults", "why_tests_cant": "The answers depend on the whole history of the one parser of the process and on every type of default; tests ask for a handful of options from one file.", "anchors": ["Utilities/config.py:268-297", "Utilities/config.py:342-382"]}
{"id": "C195", "title": "The helper behaves as documented without a value, with any default and with any file", "statement": "cnfGetIniValue raises NoSectionError or NoOptionError when the option is not set and no default is given, returns the given default for every option the file does not set, returns the value of the file for every type of default, gives the text of the file back when no default is given, and reads the file named in the call.", "quantifier": "for all files, options and defaults", "why_tests_cant": "Each clause fails only for particular combinations of default type, built-in default and order of calls.", "anchors": ["Utilities/config.py:342-382", "Utilities/config.py:278-297"]}
{"id": "C196", "title": "The tracks of a directory come once each, in the order of the files, and files are opened when needed", "statement": "loadTracksFromPath yields the tracks of all files whose names begin with 'tracks' in alphabetical order of the files whatever the order of the directory listing, opens a file only once all tracks of the files before it have been taken, raises the error of a file that cannot be loaded when its turn comes and then stops, and raises IOError at the call for a directory that cannot be listed.", "quantifier": "for all directories, listings, contents of files and numbers of steps", "why_tests_cant": "The order of a directory listing and the point up to which a generator is driven are not under the control of a test; laziness is not visible in the result.", "anchors": ["Utilities/track.py:402-471", "Evaluate/genesisDensity.py:38-77"]}
{"id": "C197", "title": "The loaders share the work between processes and report bad arguments", "statement": "loadTracksFromFiles raises TypeError when called with something that is not a list and gives every process of a parallel run its share of the tracks; loadTracksFromPath loads a directory of track files whatever else is in it, in the wind module too.", "quantifier": "for all directories and numbers of processes", "why_tests_cant": "The error of a generator is only seen on iteration, which the test hides by converting to a list; the distribution needs several processes; the copy in the wind module is not called by any test.", "anchors": ["Utilities/track.py:423-471", "wind/__init__.py:808-873"]}
{"id": "C198", "title": "nc2txt writes every value at its own place", "statement": "Converting a NetCDF variable on a grid of equal spacing, from west to east and south to north, writes one ASCII grid for the variable (or one for each value of the record dimension, in order and under that value); the program's reader gives for each file the grid moved by half a cell to the south-west, the values of each latitude at that latitude, rounded to hundredths, and NaN where the rounded value is the missing value.", "quantifier": "for all grids, data and record values without repetition whose files are not there yet", "why_tests_cant": "The tool is not tested; the claim is about every cell of every grid after writing and reading.", "anchors": ["Utilities/nc2txt.py:53-101", "Utilities/grid.py:36-103", "Utilities/grid.py:140-218"]}
{"id": "C199", "title": "nc2txt keeps any NetCDF grid as it is", "statement": "Converting a NetCDF file gives the data at its coordinates for grids whose latitudes run from north to south and grids with different spacings; small values are kept; the tool can be run again over its earlier output and handles repeated record values.", "quantifier": "for all NetCDF grids with lon and lat", "why_tests_cant": "The tool is not tested at all.", "anchors": ["Utilities/nc2txt.py:76-101", "Utilities/grid.py:66-100"]}
{"id": "C200", "title": "Multipliers and results go between buckets and local directories unharmed", "statement": "A path /vsis3/bucket/dir/file is taken apart into the bucket, the key dir/file and the file name, and only such paths are accepted; a gust file in a bucket is put into the working directory under its name, a local one is used where it is; a working directory in a bucket stands for one local directory however often it is asked for; the results are in the bucket under the path and their names, with or without a slash at the end, nothing else in it changes, and what was uploaded can be downloaded again; the raw multipliers of every type, tile and direction are in the temporary directory once all threads are done, whatever turns they took.", "quantifier": "for all buckets, keys, names, contents and interleavings of the threads", "why_tests_cant": "Tests need a bucket and see one interleaving of the threads and few names.", "anchors": ["ProcessMultipliers/processMultipliers.py:347-503", "ProcessMultipliers/processMultipliers.py:1184-1246", "Utilities/AsyncRun.py:34-56"]}
{"id": "C201", "title": "Failures of downloads and uploads are reported and leave nothing half done", "statement": "If a multiplier file cannot be downloaded the run stops; the directories needed for a gust file from a bucket are made; invalid paths are reported as such; results are uploaded all or not at all.", "quantifier": "for all buckets and files", "why_tests_cant": "Failures in threads leave no trace a test would see; the order of steps only matters with a bucket.", "anchors": ["ProcessMultipliers/processMultipliers.py:366-388", "ProcessMultipliers/processMultipliers.py:426-503", "ProcessMultipliers/processMultipliers.py:1192-1196", "Utilities/AsyncRun.py:52-56"]}
{"id": "C202", "title": "The local wind field covers where gusts and multipliers are both known", "statement": "A complete extent of the settings is used as it is, without reading a file; otherwise the extent holds exactly the points that lie between the outer points of the gust field and on the raster of multipliers, for rasters with the north at the top; the raster is cut to this extent unless the settings say that this has been done.", "quantifier": "for all gust fields, rasters and extents", "why_tests_cant": "The claim is about every point of the plane and every raster geometry.", "anchors": ["ProcessMultipliers/processMultipliers.py:506-551", "ProcessMultipliers/processMultipliers.py:317-345"]}
{"id": "C203", "title": "An invalid extent is noticed and any raster is handled", "statement": "Extents with a key missing or the wrong way round are reported; so are gust fields and rasters that do not overlap; the extent of a raster is right however it is stored; the extent covers all cells of the gust field.", "quantifier": "for all gust fields, rasters and extents", "why_tests_cant": "No test gives an invalid extent or a raster that is stored otherwise.", "anchors": ["ProcessMultipliers/processMultipliers.py:515-551"]}
{"id": "C204", "title": "Track maps show the category of every part of a track", "statement": "colorline draws a track of n positions as n-1 segments, each from one position to the next in the colour of the wind at its start; the legend gives that colour the name of the category of the Australian scale the wind is in; stronger winds never have a lower category.", "quantifier": "for all tracks and winds", "why_tests_cant": "Tests cannot look at pictures, and the bounds of the categories matter at single values.", "anchors": ["PlotInterface/tracks.py:26-90"]}
{"id": "C205", "title": "Tracks can be drawn with all their winds", "statement": "A map with tracks can be made; every known wind is shown by its own colour or category, that of the last position included; tracks of one position are shown.", "quantifier": "for all tracks", "why_tests_cant": "The maps are not drawn in any test.", "anchors": ["PlotInterface/tracks.py:26-108", "PlotInterface/maps.py:250-261"]}
{"id": "C206", "title": "Multipliers are applied at the resolution of the gusts", "statement": "lowResProcessMultipliers writes one file beside each gust file, holding in every cell the gust times the multiplier of the compass direction nearest to the bearing of the wind at the position of the cell, and the gust itself where there is no multiplier.", "quantifier": "for all gust files, bearings, multipliers and directories", "why_tests_cant": "The program needs GDAL and gust files and is in no test; the sectors matter at single bearings.", "anchors": ["ProcessMultipliers/lowResProcessMultipliers.py:16-178"]}
{"id": "C207", "title": "Evaluated pressures are those of all tracks", "statement": "evaluate.py builds its grid for any region; the mean, lowest, highest and median pressure of a cell are those of all tracks through it; the lowest pressures of all tracks are counted in bins; each simulation has the row of its own file and a missing file is reported.", "quantifier": "for all regions, track sets and missing files", "why_tests_cant": "The module is in no test; which track counts depends on their order, and rows of missing files look like others.", "anchors": ["Evaluate/evaluate.py:385-446", "Evaluate/evaluate.py:504-549", "Evaluate/evaluate.py:574-617"]}
{"id": "C208", "title": "The ages of tracks are counted", "statement": "evaluate.py calculates the age of every track, from its first to its last record, for historic and synthetic tracks.", "quantifier": "for all records", "why_tests_cant": "The module is in no test.", "anchors": ["Evaluate/evaluate.py:1406-1461"]}
{"id": "C209", "title": "The log file holds every message once", "statement": "flStartLog opens the file it is given, with the date before the extension if wanted, in the current directory if its own cannot be made; from then on, however often logs are started, that file gets every message of its level once and in order, no other file is touched, and at most one console shows messages.", "quantifier": "for all sequences of starts and messages", "why_tests_cant": "Tests see one start each; handlers are global state that other tests have changed.", "anchors": ["Utilities/files.py:200-263"]}
{"id": "C210", "title": "A log can be started anew", "statement": "A second start opens its own file with its own level; a start opens its file whatever handlers there are; a verbose start shows messages; names without extension are stamped; logs of different runs have different names.", "quantifier": "for all starts", "why_tests_cant": "Tests see one start each.", "anchors": ["Utilities/files.py:200-263"]}
{"id": "C211", "title": "Layers of wind multipliers are merged from the asked tiles", "statement": "After the collection of multiplier tiles into a working directory (both directories given with a slash at the end, the three folders all there or none) the layer of every multiplier and direction is merged from the geotiffs of exactly the files of the asked tiles of this multiplier and direction that could be translated. Nothing in the folders is left of earlier runs, nothing outside of them is removed, no geotiff belongs to two directions and no merged layer is merged again.", "quantifier": "all directories, listings, tiles, earlier contents of the folders and outcomes of the translation", "why_tests_cant": "A test works on a few files in fresh folders; here any listing, any list of tiles and anything left from earlier runs", "anchors": ["ProcessMultipliers/processMultipliers.py:194-276", "ProcessMultipliers/processMultipliers.py:1160-1168"]}
{"id": "C212", "title": "Collection of tiles recovers from incomplete folders and reports what it does not find", "statement": "The collection works whichever of its folders exist and however the directories are written, takes only the tiles that are asked for, and reports tiles that are not found or cannot be translated.", "quantifier": "all directories, listings and lists of tiles", "why_tests_cant": "Tests use complete folders, directories with a slash at the end and tiles that exist", "anchors": ["ProcessMultipliers/processMultipliers.py:194-276", "Utilities/get_multipliers.py:106-197"]}
{"id": "C213", "title": "Points and coordinates of the grid of a whole domain", "statement": "The points of makeGridDomain along an axis are evenly spaced at the resolution, start at the first limit less the margin, stay within the margin and leave no part of the domain further than a step away. For limits, margins and resolutions in thousandths of a degree the coordinates given by meshLatLonDomain start with those points, have at most one more, and are the same exactly if the width is a whole number of steps.", "quantifier": "all limits, margins and resolutions of at least a thousandth of a degree", "why_tests_cant": "Truncation and the rounding of widths depend on the numbers chosen", "anchors": ["Utilities/maputils.py:533-569", "Utilities/maputils.py:606-631"]}
{"id": "C214", "title": "Coordinates of a whole domain are those of its points", "statement": "meshLatLonDomain returns the coordinates of the points for which makeGridDomain computes distance and angle with the same limits, margin and resolution.", "quantifier": "all limits, margins and resolutions", "why_tests_cant": "Truncation and the rounding of widths depend on the numbers chosen", "anchors": ["Utilities/maputils.py:533-569", "Utilities/maputils.py:606-631"]}

{
 "claims": [
  {
   "property": "C01",
   "status": "proved",
   "theorems": [
    "c01_parallel_equals_serial",
    "c01_serial_value",
    "c01_any_buffering"
   ],
   "note": "Per-tile computation is a parameter that does not raise; the array write order, every interleaving, and every choice of buffered or blocking sends are modelled."
  },
  {
   "property": "C02",
   "status": "proved",
   "theorems": [
    "c02_tiles_partition",
    "c02_window_is_region"
   ],
   "note": "Tiles partition the window; the window is the set of grid points within the configured limits."
  },
  {
   "property": "C03",
   "status": "proved",
   "theorems": [
    "c03_annual_maxima",
    "c03_order_independent"
   ],
   "note": "File contents are inputs; year index parsed from the file name."
  },
  {
   "property": "C04",
   "status": "proved",
   "theorems": [
    "c04_positions",
    "c04_partition",
    "c04_even"
   ],
   "note": ""
  },
  {
   "property": "C05",
   "status": "proved",
   "theorems": [
    "c05_tracks_partitioned",
    "c05_filter_total"
   ],
   "note": ""
  },
  {
   "property": "C06",
   "status": "proved",
   "theorems": [
    "c06_keeps_entering",
    "c06_discards_outside",
    "c06_kept_without_entering"
   ],
   "note": ""
  },
  {
   "property": "C07",
   "status": "proved",
   "theorems": [
    "c07_swath_bounded",
    "c07_swath_full",
    "c07_components_consistent"
   ],
   "note": "Local wind values are inputs of the model."
  },
  {
   "property": "C08",
   "status": "partial",
   "theorems": [
    "c08_gust_and_pressure_partial",
    "c08_components_of_first_track_refuted",
    "c08_refuted"
   ],
   "note": "Gust maximum and pressure minimum proved. Violated: components and bearing always stay those of the first track."
  },
  {
   "property": "C09",
   "status": "partial",
   "theorems": [
    "c09_resume_partial",
    "c09_run_ends",
    "c09_complete_files_untouched",
    "c09_refuted"
   ],
   "note": "Proved with a crash at any point when every variable written before the crash carries data. Violated: a file whose variables were all created but not all filled counts as complete."
  },
  {
   "property": "C10",
   "status": "proved",
   "theorems": [
    "c10_identifier_recovered",
    "c10_names_distinct"
   ],
   "note": ""
  },
  {
   "property": "C11",
   "status": "proved",
   "theorems": [
    "c11_events",
    "c11_tracks",
    "c11_events_any_buffering",
    "c11_tracks_any_buffering",
    "c11_track_rows"
   ],
   "note": "Database errors other than duplicate keys are not modelled."
  },
  {
   "property": "C12",
   "status": "proved",
   "theorems": [
    "c12_segments"
   ],
   "note": ""
  },
  {
   "property": "C13",
   "status": "partial",
   "theorems": [
    "c13_one_thread_done",
    "c13_image_partial",
    "c13_image_combined_partial",
    "c13_one_thread",
    "c13_hang_refuted"
   ],
   "note": "Image and processing of each segment proved for every thread count and schedule; return of all workers proved for one thread. Violated for two or more: a worker can wait on the empty queue for ever."
  },
  {
   "property": "C14",
   "status": "proved",
   "theorems": [
    "c14_octant",
    "c14_one_sector",
    "c14_outside"
   ],
   "note": "Combined file assumed to hold its bands in the alphabetical order of the code's direction list. Rounding of a bearing to 360.0 is not modelled."
  },
  {
   "property": "C15",
   "status": "partial",
   "theorems": [
    "c15_numbers_partial",
    "c15_same_cell_partial",
    "c15_inverse_partial",
    "c15_rejects",
    "c15_straddling_refuted"
   ],
   "note": "Proved for domains that do not straddle the equator or prime meridian. Violated otherwise: mirrored points share a number."
  },
  {
   "property": "C16",
   "status": "proved",
   "theorems": [
    "c16_extract",
    "c16_land_sea",
    "c16_cell_numbers"
   ],
   "note": "Both extractParameter functions."
  },
  {
   "property": "C17",
   "status": "partial",
   "theorems": [
    "c17_own_window_partial",
    "c17_north_edge_refuted"
   ],
   "note": "Proved for observations off the row boundaries. Violated on them: the window is open to the north, the numbering closed."
  },
  {
   "property": "C18",
   "status": "proved",
   "theorems": [
    "c18_cdf",
    "c18_cdf_zero",
    "c18_cdf2d",
    "c18_cdf2d_value"
   ],
   "note": "Exact arithmetic."
  },
  {
   "property": "C19",
   "status": "proved",
   "theorems": [
    "c19_possible",
    "c19_exact",
    "c19_size",
    "c19_samples",
    "c19_zero_draw"
   ],
   "note": "Random numbers in (0,1], as in the property. A draw of exactly 0 can raise IndexError (c19_zero_draw)."
  },
  {
   "property": "C20",
   "status": "partial",
   "theorems": [
    "c20_above_partial",
    "c20_monotone_partial",
    "c20_refuted"
   ],
   "note": "Proved above the first grid point. Violated at and below it: index -1 reads the last entry, value 1."
  },
  {
   "property": "C21",
   "status": "proved",
   "theorems": [
    "c21_total",
    "c21_monotone",
    "c21_exact",
    "c21_positive",
    "c21_samples"
   ],
   "note": ""
  },
  {
   "property": "C22",
   "status": "partial",
   "theorems": [
    "c22_streams_partial",
    "c22_requests_refuted",
    "c22_next_seed_refuted"
   ],
   "note": "Within a run the keys seed+stream differ (c22_streams_partial). False for pairs: key = seed+stream, so simulation i+1 under seed s repeats simulation i under s+1."
  },
  {
   "property": "C23",
   "status": "partial",
   "theorems": [
    "c23_state_partial",
    "c23_first_partial",
    "c23_processes_refuted"
   ],
   "note": "False: np.random (size variates) is seeded once per process, so a simulation depends on those run before it (c23_processes_refuted). Proved: tracks are determined by the two generator states; the first simulation of a process is the same for all process counts."
  },
  {
   "property": "C24",
   "status": "proved",
   "theorems": [
    "c24_tracks"
   ],
   "note": ""
  },
  {
   "property": "C25",
   "status": "proved",
   "theorems": [
    "c25_track",
    "c25_stop",
    "c25_limit_cuts",
    "c25_runs"
   ],
   "note": ""
  },
  {
   "property": "C26",
   "status": "partial",
   "theorems": [
    "c26_prescribed_partial",
    "c26_leak_refuted",
    "c26_witness_refuted"
   ],
   "note": "False unless prescribed: initEnvPressure is assigned in the loop (line 619) and kept for all later tracks."
  },
  {
   "property": "C27",
   "status": "partial",
   "theorems": [
    "c27_clock",
    "c27_pchange",
    "c27_total_time_partial",
    "c27_land_bounds_partial",
    "c27_second_landfall_refuted",
    "c27_deepens_refuted",
    "c27_carry_refuted"
   ],
   "note": "LandfallDecay clock and pChange as stated (c27_clock, c27_pchange; exp only through its order properties). In _singleTrack the local tol is never reset, the rate can be negative, and the clock is not reset between storms (\u2026_refuted)."
  },
  {
   "property": "C28",
   "status": "partial",
   "theorems": [
    "c28_each_record_once_partial",
    "c28_number_zero_refuted"
   ],
   "note": "Proved for identifiers from 1 on. Refuted for identifier 0: those records are not returned."
  },
  {
   "property": "C29",
   "status": "partial",
   "theorems": [
    "c29_flags",
    "c29_refused",
    "c29_tracks",
    "c29_index_column_refuted"
   ],
   "note": "Flags and grouping proved for serial number, number and season columns. Refuted for a user supplied index column with values other than 0/1 or not starting with 1."
  },
  {
   "property": "C30",
   "status": "partial",
   "theorems": [
    "c30_elapsed_partial",
    "c30_start_step_refuted",
    "c30_rounded_steps_refuted",
    "c30_split_track_refuted"
   ],
   "note": "Elapsed time is the time since the start record and, for whole hour steps, the sum of steps. Refuted: steps of start records, steps that are not whole hours, tracks split at a jump."
  },
  {
   "property": "C31",
   "status": "proved",
   "theorems": [
    "c31_bearing_rate"
   ],
   "note": ""
  },
  {
   "property": "C32",
   "status": "proved",
   "theorems": [
    "c32_range",
    "c32_unchanged"
   ],
   "note": ""
  },
  {
   "property": "C33",
   "status": "partial",
   "theorems": [
    "c33_contains_wind_domain_partial",
    "c33_covers_partial",
    "c33_tight_partial",
    "c33_later_positions_refuted"
   ],
   "note": "Contains the wind field domain, covers the positions up to the last one inside, and is tight to whole degrees. Refuted for the positions after the last one inside."
  },
  {
   "property": "C34",
   "status": "proved",
   "theorems": [
    "c34_frequency",
    "c34_single_year"
   ],
   "note": ""
  },
  {
   "property": "C35",
   "status": "partial",
   "theorems": [
    "c35_crossing",
    "c35_parallel",
    "c35_coincident_refuted",
    "c35_still_refuted"
   ],
   "note": "Proved for non-parallel segments and for parallel segments of positive length as a statement about lines. Refuted: Coincident is reported for collinear segments that do not overlap and for a zero-length segment anywhere."
  },
  {
   "property": "C36",
   "status": "partial",
   "theorems": [
    "c36_status_refuted",
    "c36_points_partial",
    "c36_refuted"
   ],
   "note": "Refuted: every polygon with an edge is reported as crossed, because empty point lists are appended too."
  },
  {
   "property": "C37",
   "status": "partial",
   "theorems": [
    "c37_above_refuted",
    "c37_counterclockwise_partial",
    "c37_rectangle",
    "c37_winding_refuted"
   ],
   "note": "Proved: star-shaped counterclockwise polygons crossing the level once upwards; exact for counterclockwise rectangles. Refuted: the winding test is wrong for clockwise polygons and for edges running west below the point (the elif hangs on the wrong if)."
  },
  {
   "property": "C38",
   "status": "partial",
   "theorems": [
    "c38_statuses_partial",
    "c38_tangent_refuted",
    "c38_still_refuted"
   ],
   "note": "Proved for Outside, Inside, Intersection; Tangent describes the infinite line only. Refuted: Tangent for segments that do not reach the circle and for every zero-length segment. Over the reals (stdlib axioms)."
  },
  {
   "property": "C39",
   "status": "proved",
   "theorems": [
    "c39_like_a_list"
   ],
   "note": ""
  },
  {
   "property": "C40",
   "status": "partial",
   "theorems": [
    "c40_no_ledger",
    "c40_new_ledger",
    "c40_recorded",
    "c40_others_unaffected",
    "c40_reload_partial",
    "c40_bar_refuted"
   ],
   "note": "Recording and independence proved for all histories; reload proved for names without '|' and line ends; c40_bar_refuted shows a name with '|' makes the ledger unreadable."
  },
  {
   "property": "C41",
   "status": "partial",
   "theorems": [
    "c41_first_read",
    "c41_defaults",
    "c41_later_reads_ignored",
    "c41_set_get_partial",
    "c41_set_refuted"
   ],
   "note": "First read, defaults and later reads proved. Set/get proved after the first read for options without a formatter; a value set before the first read is lost and a string set for a list option is changed (c41_set_refuted)."
  },
  {
   "property": "C42",
   "status": "partial",
   "theorems": [
    "c42_getboolean",
    "c42_items_refuted",
    "c42_list_partial",
    "c42_text",
    "c42_list_refuted",
    "c42_bool",
    "c42_bool_refuted"
   ],
   "note": "Round trip proved exactly for non-empty lists without commas and refuted for all others; parseBool accepts exactly 'True' but getboolean accepts more, and one boolean option is never parsed by items."
  },
  {
   "property": "C43",
   "status": "proved",
   "theorems": [
    "c43_master_only"
   ],
   "note": ""
  },
  {
   "property": "C44",
   "status": "partial",
   "theorems": [
    "c44_evaluations_partial",
    "c44_no_failure_partial",
    "c44_one_failure_refuted",
    "c44_alone_partial",
    "c44_seed_exit_partial"
   ],
   "note": "No-failure part proved for all action sets and process counts; the failure part is refuted: all other processes wait at a barrier."
  },
  {
   "property": "C45",
   "status": "partial",
   "theorems": [
    "c45_inside",
    "c45_increasing_partial",
    "c45_descending_refuted"
   ],
   "note": "Values within the range of the grid: any order. Outside: increasing grids only; refuted for decreasing grids, where the far end is returned."
  },
  {
   "property": "C46",
   "status": "proved",
   "theorems": [
    "c46_range",
    "c46_inverse",
    "c46_identity",
    "c46_direction"
   ],
   "note": ""
  },
  {
   "property": "C47",
   "status": "partial",
   "theorems": [
    "c47_spellings",
    "c47_sizes_refuted",
    "c47_speeds",
    "c47_round_trip_partial",
    "c47_exact_refuted",
    "c47_unsupported_refuted"
   ],
   "note": "Round trips hold to one part in a thousand because the factors are rounded; unsupported pairs are returned unchanged without a report (refuted)."
  },
  {
   "property": "C48",
   "status": "proved",
   "theorems": [
    "c48_clamp",
    "c48_mixing",
    "c48_rh_range",
    "c48_inverse"
   ],
   "note": "Humidity conversions over exact rationals."
  },
  {
   "property": "C49",
   "status": "proved",
   "theorems": [
    "c49_meaning",
    "c49_shift",
    "c49_scale",
    "c49_sorted",
    "c49_agree",
    "c49_returns"
   ],
   "note": "Both routines; floating-point rounding not modelled."
  },
  {
   "property": "C50",
   "status": "proved",
   "theorems": [
    "c50_counts",
    "c50_gev",
    "c50_gpd",
    "c50_inverse",
    "c50_empirical",
    "c50_empirical_records",
    "c50_empirical_range"
   ],
   "note": "GEV: positive scale and shape; C89 shows the estimated scale is positive. Pareto: shapes other than zero, see C128."
  },
  {
   "property": "C51",
   "status": "partial",
   "theorems": [
    "c51_gpd_raises_refuted",
    "c51_gev_missing",
    "c51_gev_fitted",
    "c51_gev_cell",
    "c51_no_wind_refuted",
    "c51_gpd_partial",
    "c51_gpd_few_refuted"
   ],
   "note": "GEV guards proved for sorted non-negative series and a non-positive missing value; the Pareto fit counts all records instead of positive ones, raises exactly for no records or more records than days, and cells without wind report zero (refuted)."
  },
  {
   "property": "C52",
   "status": "partial",
   "theorems": [
    "c52_split",
    "c52_range",
    "c52_double_range",
    "c52_monotone",
    "c52_double_monotone",
    "c52_willoughby_refuted"
   ],
   "note": "Range and monotonicity for holland, powell, schloemer, doubleHolland; refuted for willoughby, whose shape parameter can be negative (all four methods are reachable; the Willoughby method is not in the property's anchors but is the same claim)."
  },
  {
   "property": "C53",
   "status": "proved",
   "theorems": [
    "c53_core",
    "c53_prescribed"
   ],
   "note": ""
  },
  {
   "property": "C54",
   "status": "partial",
   "theorems": [
    "c54_units",
    "c54_reject",
    "c54_inverse",
    "c54_inverse_back",
    "c54_atkinson_partial",
    "c54_atkinson_refuted"
   ],
   "note": "Inverse both ways for Willoughby and Holland; Atkinson is inverted for an environmental pressure of 1010 hPa only and refuted otherwise."
  },
  {
   "property": "C55",
   "status": "proved",
   "theorems": [
    "c55_series",
    "c55_runs",
    "c55_summaries"
   ],
   "note": "Series and summaries as stated; see C110 for what the pressure minimum means."
  },
  {
   "property": "C56",
   "status": "partial",
   "theorems": [
    "c56_undisturbed",
    "c56_kept",
    "c56_complete_partial",
    "c56_retry",
    "c56_truncated_refuted",
    "c56_unpack_refuted",
    "c56_interrupted_refuted"
   ],
   "note": "Complete under the hypotheses listed; refuted for truncated streams, archives that cannot be unpacked (every zip archive) and interruptions while writing."
  },
  {
   "property": "C57",
   "status": "partial",
   "theorems": [
    "c57_first_track_domain_partial",
    "c57_later_track_refuted",
    "c57_later_track_general"
   ],
   "note": "First track proved. Violated: later tracks reuse the domain of the first."
  },
  {
   "property": "C58",
   "status": "partial",
   "theorems": [
    "c58_window_fits_partial",
    "c58_bounded_never_fails_partial",
    "c58_full_never_fails_partial",
    "c58_every_other_step_refuted",
    "c58_refuted",
    "c58_zero_limit_refuted"
   ],
   "note": "Proved when the resolution in centidegrees divides twice the margin (and, with domain 'full', the extended width, with non-zero limits). Violated otherwise: numpy raises on the shape mismatch."
  },
  {
   "property": "C59",
   "status": "partial",
   "theorems": [
    "c59_crash_refuted",
    "c59_short_refuted",
    "c59_blocks_partial"
   ],
   "note": "Refuted: TypeError under Python 3; with integer division each block loses its last record."
  },
  {
   "property": "C60",
   "status": "partial",
   "theorems": [
    "c60_emptied_refuted",
    "c60_truncated_refuted",
    "c60_round_trip_partial",
    "c60_south_to_north_refuted",
    "c60_existing_refuted",
    "c60_spacing_refuted"
   ],
   "note": "Holds for rows from north to south with one spacing and a new file; refuted for rows from south to north, two spacings and existing files."
  },
  {
   "property": "C61",
   "status": "partial",
   "theorems": [
    "c61_failure_hangs_refuted",
    "c61_failure_hangs_any_buffering_refuted"
   ],
   "note": "Violated: proved that the master then never returns, in every execution."
  },
  {
   "property": "C62",
   "status": "partial",
   "theorems": [
    "c62_same_files_partial",
    "c62_refuted"
   ],
   "note": "Proved for a configured region. Violated without one: the domain of the first track processed after the restart is used."
  },
  {
   "property": "C63",
   "status": "partial",
   "theorems": [
    "c63_refuted"
   ],
   "note": "Violated: one file name for all tracks, and a crash between saving the gust file and the multiplier step is never repaired."
  },
  {
   "property": "C64",
   "status": "partial",
   "theorems": [
    "c64_several_partial",
    "c64_one_refuted"
   ],
   "note": "NumSimulations=1 divides by zero (line 1873). Proved for two or more given that each generateTracks call returns."
  },
  {
   "property": "C65",
   "status": "partial",
   "theorems": [
    "c65_refuted"
   ],
   "note": "Violated: proved that one such file stops the load in every execution."
  },
  {
   "property": "C66",
   "status": "partial",
   "theorems": [
    "c66_refuted"
   ],
   "note": "Violated: event rows kept, wind rows appended again."
  },
  {
   "property": "C67",
   "status": "partial",
   "theorems": [
    "c67_exceeding",
    "c67_passage_wind",
    "c67_passage_refuted",
    "c67_return_period"
   ],
   "note": "Exceedance and passage-with-wind-speed queries proved. Violated by locationPassage: wind rows joined on the event only."
  },
  {
   "property": "C68",
   "status": "partial",
   "theorems": [
    "c68_genesis_partial",
    "c68_genesis_refuted"
   ],
   "note": "Proved when some tabulated pressure is below the environmental pressure. Violated otherwise: index -1 selects the whole table."
  },
  {
   "property": "C69",
   "status": "partial",
   "theorems": [
    "c69_table_partial",
    "c69_period_refuted"
   ],
   "note": "Proved for plain and angular data and for periods that the step divides. Violated for other steps: the slice starts before day 1."
  },
  {
   "property": "C70",
   "status": "proved",
   "theorems": [
    "c70_cells"
   ],
   "note": ""
  },
  {
   "property": "C71",
   "status": "proved",
   "theorems": [
    "c71_in_domain",
    "c71_has_cell"
   ],
   "note": ""
  },
  {
   "property": "C72",
   "status": "partial",
   "theorems": [
    "c72_prescribed_partial",
    "c72_zero_refuted"
   ],
   "note": "Proved for non-zero values; zero is treated as absent."
  },
  {
   "property": "C73",
   "status": "partial",
   "theorems": [
    "c73_never_ends_refuted"
   ],
   "note": "False: the while loop does not count the rejected attempt."
  },
  {
   "property": "C74",
   "status": "partial",
   "theorems": [
    "c74_size_file_refuted"
   ],
   "note": "False: `if not self.allCDFInitSize` on an array raises ValueError."
  },
  {
   "property": "C75",
   "status": "partial",
   "theorems": [
    "c75_file_partial",
    "c75_split_partial",
    "c75_west_south_refuted",
    "c75_greenwich_refuted"
   ],
   "note": "Proved for steps east and north. Refuted for steps west and south and across the Greenwich meridian."
  },
  {
   "property": "C76",
   "status": "proved",
   "theorems": [
    "c76_pressure_rate"
   ],
   "note": ""
  },
  {
   "property": "C77",
   "status": "partial",
   "theorems": [
    "c77_size_rate_partial",
    "c77_after_missing_refuted"
   ],
   "note": "Refuted after a missing radius: the missing value code enters the difference."
  },
  {
   "property": "C78",
   "status": "proved",
   "theorems": [
    "c78_entering_cyclones_kept",
    "c78_whole_cyclones"
   ],
   "note": ""
  },
  {
   "property": "C79",
   "status": "proved",
   "theorems": [
    "c79_values"
   ],
   "note": ""
  },
  {
   "property": "C80",
   "status": "proved",
   "theorems": [
    "c80_speed"
   ],
   "note": ""
  },
  {
   "property": "C81",
   "status": "partial",
   "theorems": [
    "c81_edge_genesis_refuted",
    "c81_counted_partial"
   ],
   "note": "Counted starts are extracted; refuted for a start on the edge of the domain."
  },
  {
   "property": "C82",
   "status": "partial",
   "theorems": [
    "c82_calendar_partial",
    "c82_year_differences_partial",
    "c82_leap_day_refuted"
   ],
   "note": "Year differences proved; refuted for 29 February of a cyclone that starts in January."
  },
  {
   "property": "C83",
   "status": "proved",
   "theorems": [
    "c83_radius",
    "c83_closed_isobar",
    "c83_one_size_deviate"
   ],
   "note": ""
  },
  {
   "property": "C84",
   "status": "partial",
   "theorems": [
    "c84_array_partial",
    "c84_parts_refuted"
   ],
   "note": "Proved for arrays. Refuted for lists of parts: the last edge is never tested. Over the reals (stdlib axioms)."
  },
  {
   "property": "C85",
   "status": "partial",
   "theorems": [
    "c85_crossings_partial",
    "c85_net_partial",
    "c85_tracks",
    "c85_segment",
    "c85_refuted"
   ],
   "note": "Proved for tracks with no vertex on the gate longitude, and segment by segment for all. Refuted: a track with a vertex on the gate is counted twice."
  },
  {
   "property": "C86",
   "status": "proved",
   "theorems": [
    "c86_reverse",
    "c86_turn",
    "c86_inside",
    "c86_outside_box",
    "c86_constant",
    "c86_reachable",
    "c86_crossings"
   ],
   "note": ""
  },
  {
   "property": "C87",
   "status": "partial",
   "theorems": [
    "c87_enough_files_partial",
    "c87_few_files_refuted"
   ],
   "note": "Proved when there are at least as many files as workers (rows are a permutation of the serial rows, means equal); refuted otherwise. Percentiles follow from the permutation but are not modelled."
  },
  {
   "property": "C88",
   "status": "partial",
   "theorems": [
    "c88_units_refuted"
   ],
   "note": "Refuted: for grams per kilogram the result is 1000 times too large."
  },
  {
   "property": "C89",
   "status": "proved",
   "theorems": [
    "c89_gumbel",
    "c89_zero_shape",
    "c89_gumbel_skewness",
    "c89_newton_step",
    "c89_skewness",
    "c89_gev",
    "c89_gpd",
    "c89_invalid"
   ],
   "note": "Complete for every skewness a double can hold above -1 (at least -1 + 2^-53): the Newton iteration for skewness below -0.8 keeps the shape above 2.3, so scale is positive and both moments are reproduced. For skewness of at least -0.8 the third ratio is reproduced within 0.02 (c89_skewness; the true accuracy of the approximation is about 2e-7, which is not proved, nor is the third ratio after the Newton iteration). With shape zero the constants of the code are within 1e-8 of Euler's constant and ln 2. The gamma function is a parameter, positive on positive arguments."
  },
  {
   "property": "C90",
   "status": "partial",
   "theorems": [
    "c90_which_refuted",
    "c90_errors_refuted",
    "c90_documented_refuted",
    "c90_usable"
   ],
   "note": "Refuted: jelesnianski raises UnboundLocalError, doubleHolland KeyError; exact set of usable names proved."
  },
  {
   "property": "C91",
   "status": "partial",
   "theorems": [
    "c91_gap_refuted",
    "c91_given_partial",
    "c91_powell_refuted",
    "c91_willoughby_refuted"
   ],
   "note": "Proved for holland and schloemer; refuted for powell (nautical miles against kilometres) and for willoughby at every radius but one."
  },
  {
   "property": "C92",
   "status": "partial",
   "theorems": [
    "c92_holland_refuted",
    "c92_gap",
    "c92_others_partial"
   ],
   "note": "Jelesnianski and Rankine proved; Holland refuted for every storm off the equator."
  },
  {
   "property": "C93",
   "status": "partial",
   "theorems": [
    "c93_runs_partial",
    "c93_exact",
    "c93_refuted"
   ],
   "note": "Exact condition for deficits of at least 0.5 Pa; refuted for weak storms."
  },
  {
   "property": "C94",
   "status": "partial",
   "theorems": [
    "c94_jelesnianski_scale_refuted",
    "c94_rankine_error_refuted",
    "c94_core_partial",
    "c94_outer_refuted",
    "c94_jelesnianski_refuted",
    "c94_rankine_refuted"
   ],
   "note": "Holland inside proved; Holland outside is too large by 2|f|; Jelesnianski and Rankine refuted by witnesses."
  },
  {
   "property": "C95",
   "status": "partial",
   "theorems": [
    "c95_profiles",
    "c95_fields_partial",
    "c95_hubbert_refuted",
    "c95_double_refuted"
   ],
   "note": "Holland, Jelesnianski, Rankine profiles and Kepert and McConochie fields proved; Hubbert and DoubleHolland refuted."
  },
  {
   "property": "C96",
   "status": "partial",
   "theorems": [
    "c96_velocity_partial",
    "c96_field_partial",
    "c96_reversed_refuted",
    "c96_equator_refuted"
   ],
   "note": "Velocity for shape parameter squared up to 12, vorticity and Kepert field up to 2, away from the equator; refuted at the equator and for shape parameter 4."
  },
  {
   "property": "C97",
   "status": "proved",
   "theorems": [
    "c97_still"
   ],
   "note": ""
  },
  {
   "property": "C98",
   "status": "partial",
   "theorems": [
    "c98_bounds_partial",
    "c98_core_refuted",
    "c98_cyclonic_partial",
    "c98_reversed_refuted"
   ],
   "note": "Jelesnianski, Rankine, Holland outside proved; Holland inside refuted off the equator; cyclonic up to shape parameter 2 sqrt 3."
  },
  {
   "property": "C99",
   "status": "partial",
   "theorems": [
    "c99_order_refuted",
    "c99_order_partial",
    "c99_weaker"
   ],
   "note": "Refuted by a small drop at 19.5 m/s; holds up to 0.01 m/s; never above the gradient wind proved."
  },
  {
   "property": "C100",
   "status": "proved",
   "theorems": [
    "c100_quarter",
    "c100_agree",
    "c100_metric",
    "c100_zero"
   ],
   "note": ""
  },
  {
   "property": "C101",
   "status": "proved",
   "theorems": [
    "c101_move",
    "c101_bearing",
    "c101_track",
    "c101_reach"
   ],
   "note": "Real arithmetic; the single precision of the stored positions is not modelled."
  },
  {
   "property": "C102",
   "status": "proved",
   "theorems": [
    "c102_theta",
    "c102_distance",
    "c102_positive"
   ],
   "note": "The interpreted minimum replaces exact zeros only, so the two differ by less than 1e-30 km between 0 and 1e-30 km; the compiled constant toRads is taken as pi/180 although it is a single precision literal."
  },
  {
   "property": "C103",
   "status": "partial",
   "theorems": [
    "c103_components_partial",
    "c103_meridian_partial",
    "c103_great_circle_refuted",
    "c103_symmetric_refuted"
   ],
   "note": "Components and the distance along meridians proved; great circle distance and symmetry refuted (equirectangular formula with the cosine of the second latitude)."
  },
  {
   "property": "C104",
   "status": "partial",
   "theorems": [
    "c104_line_refuted",
    "c104_model_partial"
   ],
   "note": "Refuted: the configured angle is converted to radians three times (70 degrees act as 0.0004 radians); the model alone has the strongest wind on the line it is given, up to the drop of C99."
  },
  {
   "property": "C105",
   "status": "partial",
   "theorems": [
    "c105_points_partial",
    "c105_agree_partial",
    "c105_refuted",
    "c105_length_refuted"
   ],
   "note": "Agreement for margins of whole half steps with the grid on one side of zero; refuted otherwise."
  },
  {
   "property": "C106",
   "status": "partial",
   "theorems": [
    "c106_single_run_partial",
    "c106_last_writer",
    "c106_processes_refuted",
    "c106_resume_refuted"
   ],
   "note": "Proved for one fresh process; refuted for several processes (the last writer wins) and for resumed runs (completed tracks are skipped before sampling)."
  },
  {
   "property": "C107",
   "status": "partial",
   "theorems": [
    "c107_bearing",
    "c107_between_neighbours",
    "c107_weights_refuted",
    "c107_uniform",
    "c107_summaries"
   ],
   "note": "Factor bounded by the neighbouring multipliers; refuted as an interpolation, the two weights are exchanged."
  },
  {
   "property": "C108",
   "status": "partial",
   "theorems": [
    "c108_all_present",
    "c108_shared_file_refuted",
    "c108_names_refuted"
   ],
   "note": "Presence proved; refuted for two data sets with one file name and for names listed with a space after the comma."
  },
  {
   "property": "C109",
   "status": "partial",
   "theorems": [
    "c109_column_partial",
    "c109_mirrored_refuted",
    "c109_north_to_south_refuted",
    "c109_nearest_refuted"
   ],
   "note": "Refuted: mirrored rows for latitudes from south to north, first row or IndexError for latitudes from north to south, next instead of nearest column."
  },
  {
   "property": "C110",
   "status": "partial",
   "theorems": [
    "c110_inside_partial",
    "c110_lowest_pressure_refuted",
    "c110_names_refuted"
   ],
   "note": "Proved for stations inside every grid with short names. Refuted: the pressure of the grid corner stands in for a station outside the grid and may become its minimum; names are cut to 16 characters and equal names share a file."
  },
  {
   "property": "C111",
   "status": "proved",
   "theorems": [
    "c111_turns",
    "c111_calm",
    "c111_opposite"
   ],
   "note": ""
  },
  {
   "property": "C112",
   "status": "partial",
   "theorems": [
    "c112_multiple",
    "c112_steps_partial",
    "c112_short_refuted",
    "c112_last_step_refuted"
   ],
   "note": "Exact when the duration is a multiple of the time step; otherwise the last step is up to almost twice the time step, and a track shorter than the time step loses its start."
  },
  {
   "property": "C113",
   "status": "proved",
   "theorems": [
    "c113_observed",
    "c113_between",
    "c113_total"
   ],
   "note": "Proved for linear and both Akima versions; the cubic spline of scipy is a parameter and excluded."
  },
  {
   "property": "C114",
   "status": "partial",
   "theorems": [
    "c114_outside",
    "c114_range",
    "c114_observed_partial",
    "c114_last_refuted",
    "c114_error_refuted"
   ],
   "note": "Outside and range proved; the last usable new time repeats the pressure before it; an IndexError if no new time lies between the first and last central pressure. Tracks of up to three records only in C113."
  },
  {
   "property": "C115",
   "status": "partial",
   "theorems": [
    "c115_speed_partial",
    "c115_multiple_partial",
    "c115_last_refuted"
   ],
   "note": "Holds for all but the last step, and for that too if the duration is a multiple of the time step."
  },
  {
   "property": "C116",
   "status": "proved",
   "theorems": [
    "c116_nodes",
    "c116_line",
    "c116_smooth",
    "c116_straight",
    "c116_parabola"
   ],
   "note": "Proved for both versions."
  },
  {
   "property": "C117",
   "status": "partial",
   "theorems": [
    "c117_agree_partial",
    "c117_kink_refuted",
    "c117_unsorted_refuted",
    "c117_reads_refuted"
   ],
   "note": "Agree unless the slopes around a data point are all but constant on both sides; at such a kink the derivatives differ; unsorted positions give wrong values in the extension, which also reads one entry behind the data."
  },
  {
   "property": "C118",
   "status": "proved",
   "theorems": [
    "c118_symmetric",
    "c118_bounded",
    "c118_lags",
    "c118_scale",
    "c118_stationary"
   ],
   "note": ""
  },
  {
   "property": "C119",
   "status": "partial",
   "theorems": [
    "c119_offset_refuted",
    "c119_positive",
    "c119_noise_refuted",
    "c119_bearing_refuted"
   ],
   "note": "acf does not remove the mean: adding a constant to the observations changes even the sign of the coefficient, and positive observations never have a negative coefficient; the coefficient of bearings is computed from degrees on a line and depends on the zero direction; the logistic noise of scale 1 has a mean square above 1 (a lower sum of its integral exceeds 1), so the simulated anomalies are more variable than the standard deviation of the cell says."
  },
  {
   "property": "C120",
   "status": "proved",
   "theorems": [
    "c120_mean",
    "c120_turn",
    "c120_order",
    "c120_spread",
    "c120_constant",
    "c120_unique"
   ],
   "note": ""
  },
  {
   "property": "C121",
   "status": "proved",
   "theorems": [
    "c121_hours",
    "c121_roundtrip",
    "c121_exact"
   ],
   "note": ""
  },
  {
   "property": "C122",
   "status": "partial",
   "theorems": [
    "c122_which",
    "c122_units_refuted",
    "c122_twice_refuted",
    "c122_stale_refuted",
    "c122_interpolate_refuted",
    "c122_fields_refuted"
   ],
   "note": "The time units are recorded as hours since 1900 whatever units were used; saving replaces the dates of the tracks by numbers so that a second save fails; an empty list leaves the file of an earlier run in place; records are cast to the fields of the first track by position; tracks read from a file lack WindSpeed, which the interpolation reads."
  },
  {
   "property": "C123",
   "status": "proved",
   "theorems": [
    "c123_saved"
   ],
   "note": ""
  },
  {
   "property": "C124",
   "status": "partial",
   "theorems": [
    "c124_domain_refuted",
    "c124_plot_refuted",
    "c124_plot_one_refuted"
   ],
   "note": "The domain is not recorded in the statistics file (the source has a TODO) and statistics of another domain with equally many cells are accepted; plotStatistics writes cell i to column i - 1 of one column too few, so the first cell is overwritten by the last, and a domain of one cell fails."
  },
  {
   "property": "C125",
   "status": "proved",
   "theorems": [
    "c125_day",
    "c125_back",
    "c125_exists"
   ],
   "note": "Closed; datetime's calendar is modelled by month lengths."
  },
  {
   "property": "C126",
   "status": "partial",
   "theorems": [
    "c126_before1900_refuted",
    "c126_century_refuted",
    "c126_leap_refuted",
    "c126_single_year_refuted"
   ],
   "note": "Refuted: years before 1900 are treated as the leap year 1904 by julianDays but by the original year in _juliandays; 1900 and 2100 are divisible by four without being leap years; in simulated leap years days from 60 fall one day early; a record of a single year writes no annual numbers."
  },
  {
   "property": "C127",
   "status": "proved",
   "theorems": [
    "c127_days",
    "c127_years"
   ],
   "note": "Closed."
  },
  {
   "property": "C128",
   "status": "partial",
   "theorems": [
    "c128_zero_shape_refuted"
   ],
   "note": "Refuted: gpdfit rejects only positive shapes; with shape zero the level is infinity times zero, not a number, although the levels for shapes tending to zero converge to mu + scale ln(t npyr rate)."
  },
  {
   "property": "C129",
   "status": "proved",
   "theorems": [
    "c129_total",
    "c129_cell",
    "c129_pressures",
    "c129_statistics",
    "c129_minima",
    "c129_minima_share",
    "c129_missing",
    "c129_present"
   ],
   "note": "Exact arithmetic; percentiles and plots not modelled."
  },
  {
   "property": "C130",
   "status": "partial",
   "theorems": [
    "c130_remainder_refuted",
    "c130_fine_refuted",
    "c130_upper_edge_refuted",
    "c130_years_refuted",
    "c130_minima_refuted"
   ],
   "note": "Refuted: a spacing that does not divide the domain leaves out the remainder; a spacing below 0.1 degree adds cells outside; positions on the upper edge have density but no pressure; the rate divides by last year minus first year (one too few, zero for one year); tracks that start outside the domain have no lowest pressure, and a simulation without any gives no numbers."
  },
  {
   "property": "C131",
   "status": "proved",
   "theorems": [
    "c131_shares",
    "c131_sum",
    "c131_reverse",
    "c131_passes"
   ],
   "note": ""
  },
  {
   "property": "C132",
   "status": "partial",
   "theorems": [
    "c132_last_gate_refuted",
    "c132_shift_refuted",
    "c132_no_landfall_refuted",
    "c132_vertex_refuted",
    "c132_clockwise_refuted"
   ],
   "note": "Refuted: the last gate is never counted; the gate between the first two vertices has entry 1 and entry 0 is always zero; a simulation without landfall has no rates and then the means over all simulations are not numbers; a landfall through a common vertex counts for both gates; for some clockwise coasts the move onto land is not recognised."
  },
  {
   "property": "C133",
   "status": "proved",
   "theorems": [
    "c133_category",
    "c133_row",
    "c133_directions",
    "c133_segments"
   ],
   "note": ""
  },
  {
   "property": "C134",
   "status": "partial",
   "theorems": [
    "c134_shift_refuted",
    "c134_severe_refuted",
    "c134_high_refuted",
    "c134_area_refuted"
   ],
   "note": "Refuted: columns cat1 to cat5 hold categories 0 to 4 and category 5 is dropped; pressures above 1020 hPa have no category; the evaluation by area raises IndexError as soon as a segment crosses the area."
  },
  {
   "property": "C135",
   "status": "proved",
   "theorems": [
    "c135_inside",
    "c135_nodes",
    "c135_linear"
   ],
   "note": ""
  },
  {
   "property": "C136",
   "status": "partial",
   "theorems": [
    "c136_greenwich_refuted",
    "c136_east_refuted",
    "c136_poles_refuted",
    "c136_days_refuted",
    "c136_rows_refuted"
   ],
   "note": "Refuted (with scipy's documented mode='wrap'): 360 degrees has the pressure of the second column and the strip east of the last column repeats the strip at Greenwich; with rows at both poles every row but the first is missed and the north pole has the pressure of the second row; 1 January and 31 December both have the pressure of the second record; the coordinates of the file are never read, so a file ordered from north to south gives the other hemisphere."
  },
  {
   "property": "C137",
   "status": "proved",
   "theorems": [
    "c137_saved",
    "c137_repeated",
    "c137_refuses",
    "c137_key"
   ],
   "note": ""
  },
  {
   "property": "C138",
   "status": "partial",
   "theorems": [
    "c138_clobber_refuted",
    "c138_gatts_refuted",
    "c138_masked_refuted",
    "c138_create_refuted",
    "c138_times_refuted"
   ],
   "note": "Refuted: the file is opened for writing before the arguments are checked, so every failure leaves an unfinished file instead of the earlier one; gatts=None raises TypeError; the array returned is not masked; ncCreateVar raises ValueError for arrays of several values and leaves out a single zero; ncGetTimes raises UnboundLocalError for a file with another convention or without the dimension."
  },
  {
   "property": "C139",
   "status": "proved",
   "theorems": [
    "c139_bearing",
    "c139_range",
    "c139_components",
    "c139_octant"
   ],
   "note": "Over real numbers; the calm wind (both components zero) has no direction and is covered by the range only. Signed zeros are not modelled."
  },
  {
   "property": "C140",
   "status": "proved",
   "theorems": [
    "c140_missing_cell",
    "c140_present_cell",
    "c140_main",
    "c140_create",
    "c140_combine",
    "c140_combine_nodata",
    "c140_extent",
    "c140_extent_given",
    "c140_s3"
   ],
   "note": "GDAL's rule (the pixel containing the position) is the model of reading a raster; reprojection to the grid of the multipliers is not modelled."
  },
  {
   "property": "C141",
   "status": "partial",
   "theorems": [
    "c141_local_refuted",
    "c141_nodata_refuted",
    "c141_bounds_refuted",
    "c141_disjoint_refuted",
    "c141_path_refuted"
   ],
   "note": "calcLocalWindfield passes ascending latitudes to processMult, which assumes the descending ones of the gust file: all rows but the northernmost have no data at their place and are found mirrored north of the domain, for every grid. Where the topographic layer has no data, combineDirections writes the terrain multiplier alone (the data behind the mask). Three of four configured bounds are ignored silently; a wind field west of the image gives xMin > xMax. '' and '/vsis3' raise IndexError."
  },
  {
   "property": "C142",
   "status": "proved",
   "theorems": [
    "c142_fields",
    "c142_points",
    "c142_segments",
    "c142_all_tracks",
    "c142_dissolved",
    "c142_category",
    "c142_category_order",
    "c142_columns",
    "c142_vertices",
    "c142_repeated_keys",
    "c142_field",
    "c142_write_single"
   ],
   "note": "Holds; the shape file library and the rounding of attributes to field widths are not modelled."
  },
  {
   "property": "C143",
   "status": "partial",
   "theorems": [
    "c143_formats_refuted",
    "c143_crossing_refuted",
    "c143_westward_refuted",
    "c143_second_crossing_refuted",
    "c143_parts_refuted",
    "c143_records_refuted",
    "c143_default_refuted",
    "c143_empty_refuted"
   ],
   "note": "Refuted: one position is lost at every split, westward and second crossings are not cut, every part of a multi-part shape loses its last point, records are columns, the default format is not accepted, an empty track raises."
  },
  {
   "property": "C144",
   "status": "proved",
   "theorems": [
    "c144_kernel",
    "c144_range",
    "c144_total",
    "c144_linear",
    "c144_mirror",
    "c144_plot"
   ],
   "note": "Holds; convolve2d is modelled by its documented result for odd kernels with symmetric boundary."
  },
  {
   "property": "C145",
   "status": "partial",
   "theorems": [
    "c145_coarse_refuted",
    "c145_mask_refuted",
    "c145_direction_refuted"
   ],
   "note": "Refuted: a spacing above one degree gives kernel size 0 and NaN everywhere; the fill value behind the mask changes every smoothed value in reach; getKernel tests the built-in dir and raises for every direction."
  },
  {
   "property": "C146",
   "status": "proved",
   "theorems": [
    "c146_nearest",
    "c146_place",
    "c146_layers",
    "c146_reference",
    "c146_value"
   ],
   "note": "Holds for domains of whole cells; coordinates exact (f4 rounding not modelled)."
  },
  {
   "property": "C147",
   "status": "partial",
   "theorems": [
    "c147_resolution_refuted",
    "c147_remainder_refuted",
    "c147_coordinates_refuted"
   ],
   "note": "Refuted: at 0.025 degrees no window of four points fits; a domain less than half a cell over whole cells lacks the last grid point; more than half a cell over, coordinates are stretched."
  },
  {
   "property": "C148",
   "status": "proved",
   "theorems": [
    "c148_levels",
    "c148_order",
    "c148_colours",
    "c148_graticule",
    "c148_spacing",
    "c148_arrangement",
    "c148_scale",
    "c148_scale_largest"
   ],
   "note": ""
  },
  {
   "property": "C149",
   "status": "partial",
   "theorems": [
    "c149_narrow_refuted",
    "c149_pressures_refuted",
    "c149_negative_refuted",
    "c149_many_refuted",
    "c149_empty_refuted"
   ],
   "note": "Refuted: levels raises IndexError whenever the values span at most 0.7 of the power of ten below the maximum (900-1000 hPa), fails for maxima that are not positive, returns arbitrarily many levels for large negative minima; no figures divides by zero, scale bars of maps narrower than 5 km recurse for ever."
  },
  {
   "property": "C150",
   "status": "proved",
   "theorems": [
    "c150_bandwidth_32",
    "c150_bandwidth_more",
    "c150_wrap",
    "c150_seam",
    "c150_nonnegative",
    "c150_bandwidth",
    "c150_exists",
    "c150_origin",
    "c150_range",
    "c150_probability"
   ],
   "note": ""
  },
  {
   "property": "C151",
   "status": "partial",
   "theorems": [
    "c151_genesis_value_refuted",
    "c151_bearing_refuted",
    "c151_constant_refuted",
    "c151_step_refuted",
    "c151_genesis_refuted",
    "c151_memory_refuted",
    "c151_circular_refuted",
    "c151_save_refuted"
   ],
   "note": "Refuted: angular data are not repeated across north (KDEParameters.py:139 only for periodic data); equal bearings make the bandwidth zero and the estimate raises; with a step of two days the table starts at day 0 and misses 365; generateGenesisDateCDF ignores its file and uses self.parameters; circularKDE starts from np.empty and divides by the grid length; KDEOrigin with given positions has no processPath to save to."
  },
  {
   "property": "C152",
   "status": "proved",
   "theorems": [
    "c152_bar",
    "c152_percentages",
    "c152_remaining",
    "c152_timer",
    "c152_simple",
    "c152_directories",
    "c152_present",
    "c152_window",
    "c152_event",
    "c152_impact",
    "c152_position",
    "c152_times",
    "c152_silent",
    "c152_layout"
   ],
   "note": ""
  },
  {
   "property": "C153",
   "status": "partial",
   "theorems": [
    "c153_setting_refuted",
    "c153_throttle_refuted",
    "c153_race_refuted",
    "c153_simulation_refuted",
    "c153_events_refuted",
    "c153_impact_refuted",
    "c153_numbers_refuted",
    "c153_sections_refuted"
   ],
   "note": "Refuted: config.get returns the text 'False', which counts as true; lastPercentage lags behind after a jump and every update from 99% on prints; doOutputDirectoryCreation of tcevent.py is not limited to the master and its test and makedirs can interleave; for a simulated track file tracks.00007.nc the map reads gust.00007.nc, never written, and for several cyclones or xml input gust.001-00001.nc is not written either; the Actions section is always present in the defaults, so the fallback to the Impact section is dead."
  },
  {
   "property": "C154",
   "status": "proved",
   "theorems": [
    "c154_globe",
    "c154_vapour",
    "c154_round_trip",
    "c154_saturation",
    "c154_dew_point_humidity",
    "c154_humidity_dew_point",
    "c154_elevation",
    "c154_wet_bulb",
    "c154_wet_bulb_search",
    "c154_wet_bulb_back"
   ],
   "note": "HumidModel.v; real arithmetic, psychrometer constants of the code; -237.3 C (division by zero) excluded; rounding of the wet bulb result to three decimals with ties upwards."
  },
  {
   "property": "C155",
   "status": "partial",
   "theorems": [
    "c155_globe_refuted",
    "c155_wet_bulb_humidity_refuted",
    "c155_dry_air_refuted",
    "c155_documented_units_refuted",
    "c155_mercury_refuted"
   ],
   "note": "Refuted: wetBulbToRH divides hPa by kPa (ten times too large, clipped at 100; its docstring example gives 6.7 where the code gives 67); rHToDewPoint(0, t) uses an unbound variable; strong depressions give no dew point; vapPrToDewPoint is documented in Kelvin but returns Celsius; vapour is documented in kPa but returns hPa; inHg and mmHg do not convert back; wetBulbGlobeTemp puts kPa into a formula for hPa, so that its result is too low."
  },
  {
   "property": "C156",
   "status": "proved",
   "theorems": [
    "c156_same_time",
    "c156_sudden",
    "c156_density",
    "c156_date_columns",
    "c156_positive",
    "c156_zero",
    "c156_factor_mirror",
    "c156_tracks",
    "c156_records",
    "c156_extremes",
    "c156_age",
    "c156_day",
    "c156_columns"
   ],
   "note": "VmaxModel.v; winds over R (nan and infinity become 0 as in the code), 32 bit days modelled for years 1436 to 2871; distances of getSpeedBearing are inputs (modelled in SphereModel)."
  },
  {
   "property": "C157",
   "status": "partial",
   "theorems": [
    "c157_sign_refuted",
    "c157_pascals_refuted",
    "c157_hour_refuted",
    "c157_no_date_refuted",
    "c157_one_record_refuted"
   ],
   "note": "Refuted: a record above the environment at 60 degrees gets a positive wind (both factors negative) and one with a deficit at 85 degrees none; penv and poci columns are not converted from Pa, so first records have no wind; 32 bit days turn 01:00 and 01:59 into 01:30; numpy raises ValueError for a missing column but parseDates catches KeyError only; genfromtxt squeezes a single line to a scalar on which numpy.diff fails."
  },
  {
   "property": "C158",
   "status": "proved",
   "theorems": [
    "c158_years",
    "c158_text",
    "c158_build",
    "c158_places",
    "c158_domain",
    "c158_levels",
    "c158_records",
    "c158_distance",
    "c158_on_track",
    "c158_meridian"
   ],
   "note": ""
  },
  {
   "property": "C159",
   "status": "partial",
   "theorems": [
    "c159_western_domain_refuted",
    "c159_west_refuted",
    "c159_smaller_domain_refuted",
    "c159_location_file_refuted",
    "c159_twice_refuted",
    "c159_track_file_refuted",
    "c159_high_latitude_refuted",
    "c159_seam_refuted"
   ],
   "note": "Every clause is refuted by a witness: longitudes are stored modulo 360 and compared with the domain as given (no station at all west of Greenwich, proved for every file); tblLocations is never cleared; an existing locations.db is used without looking at LocationFile; tblHazard has no key, so rows are repeated; the track file name is stored as a blob; the planar distance in degrees is more than twice the great-circle distance at latitude 60 and 100 times across Greenwich."
  },
  {
   "property": "C160",
   "status": "proved",
   "theorems": [
    "c160_escapes",
    "c160_unmoved",
    "c160_directory",
    "c160_template",
    "c160_template_order",
    "c160_archive",
    "c160_name",
    "c160_distinct",
    "c160_batch"
   ],
   "note": ""
  },
  {
   "property": "C161",
   "status": "partial",
   "theorems": [
    "c161_keys_refuted",
    "c161_same_name_refuted",
    "c161_timestamp_refuted",
    "c161_no_directory_refuted",
    "c161_report_refuted",
    "c161_nested_refuted",
    "c161_backslash_refuted",
    "c161_number_refuted"
   ],
   "note": "All clauses are refuted: values are substituted one after the other in dictionary order, so placeholders inside values are replaced or not depending on the order; backslashes in values are escapes of re.sub (an n becomes a line break, \\d an error); {1} is a repetition with nothing to repeat; os.rename replaces an earlier file of the same name and minute; pArchiveTimestamp(False) only reads the flag; an empty archive directory means the current one; LOGGER.critcal does not exist."
  },
  {
   "property": "C162",
   "status": "proved",
   "theorems": [
    "c162_rmax",
    "c162_coefficients",
    "c162_least",
    "c162_exact"
   ],
   "note": ""
  },
  {
   "property": "C163",
   "status": "partial",
   "theorems": [
    "c163_constant_refuted",
    "c163_use_refuted",
    "c163_units_refuted"
   ],
   "note": "Refuted by two observations: the design matrix has no constant column, the returned list is (b, c, std) where rmax expects (a, b, c), and doubling the logarithms of the radii changes the slopes."
  },
  {
   "property": "C164",
   "status": "proved",
   "theorems": [
    "c164_statistics",
    "c164_setup",
    "c164_plots",
    "c164_products",
    "c164_statistics_products",
    "c164_hazard_plots",
    "c164_keeps",
    "c164_winds",
    "c164_complete",
    "c164_parts",
    "c164_tracks",
    "c164_hazard",
    "c164_exactly"
   ],
   "note": "Exact conditions for a complete run, independence of earlier files, parts run alone."
  },
  {
   "property": "C165",
   "status": "partial",
   "theorems": [
    "c165_format_refuted",
    "c165_age_refuted",
    "c165_year_refuted",
    "c165_radius_refuted",
    "c165_leftover_refuted",
    "c165_again_refuted",
    "c165_kept_refuted",
    "c165_fewer_refuted",
    "c165_ghosts_refuted",
    "c165_none_refuted"
   ],
   "note": "All clauses refuted: formats other than text and an age column stop the input processing; one year of input breaks the plots (or shows the frequencies of an earlier run); a radius distribution without a radius column stops the statistics at the last step; an old radius distribution is used although switched off; wind fields already there are never computed anew, so a second run gives the hazard of the first tracks, with cyclones that no longer exist; old track files beyond the number of simulations get winds; no cyclone at all fails."
  },
  {
   "property": "C166",
   "status": "proved",
   "theorems": [
    "c166_year",
    "c166_point",
    "c166_succeeds",
    "c166_tiles",
    "c166_order",
    "c166_calm",
    "c166_level",
    "c166_axes",
    "c166_names"
   ],
   "note": "Proved for any fit function that depends on the sorted values, as the four fit functions do (they sort their records)."
  },
  {
   "property": "C167",
   "status": "partial",
   "theorems": [
    "c167_foreign_refuted",
    "c167_foreign_always_refuted",
    "c167_beyond_refuted",
    "c167_grid_refuted",
    "c167_names_refuted",
    "c167_percentiles_refuted"
   ],
   "note": "Refuted: a foreign file stops GPD, power and emp, and every distribution if it is listed first (GEV ignores it otherwise); wind fields of simulations beyond the number set are left out by GEV and used by the others; wind fields of another grid of sufficient size are read by index as if on the grid of the first file; 'gev' is refused; the recorded 5 and 95 per cent are those used only if PercentileRange is 90."
  },
  {
   "property": "C168",
   "status": "proved",
   "theorems": [
    "c168_paired",
    "c168_sample",
    "c168_land",
    "c168_no_init",
    "c168_speed_rate",
    "c168_winds"
   ],
   "note": "Days are written as whole numbers and initial speeds with six decimals: the theorem holds for any rounding of the values."
  },
  {
   "property": "C169",
   "status": "partial",
   "theorems": [
    "c169_cell_refuted",
    "c169_single_refuted",
    "c169_genesis_refuted",
    "c169_junk_refuted",
    "c169_negative_refuted",
    "c169_small_refuted"
   ],
   "note": "Refuted: a record at 149.996 is counted in the cell that starts at 150; with one cyclone the files load with a dimension less and the statistics stop with an error; a cyclone with one record is among the origins used for the frequency but not a point of the genesis density; without a column of winds the file of winds holds uninitialised memory; winds coded -999 stay; rates below 0.005 are read as 0."
  },
  {
   "property": "C170",
   "status": "proved",
   "theorems": [
    "c170_linear",
    "c170_missing",
    "c170_bounds",
    "c170_reverse",
    "c170_gradient",
    "c170_rotation",
    "c170_sum",
    "c170_poles",
    "c170_earth",
    "c170_hemispheres",
    "c170_shift",
    "c170_rest"
   ],
   "note": ""
  },
  {
   "property": "C171",
   "status": "partial",
   "theorems": [
    "c171_square_refuted",
    "c171_edge_refuted",
    "c171_meridian_refuted",
    "c171_seam_refuted",
    "c171_none_refuted",
    "c171_single_refuted"
   ],
   "note": "False: one-sided differences at the edges (off by the spacing for a square), [359, 0, 1] is differenced as it stands so the vorticity has the wrong sign, the seam of a global grid is an edge, missing=None fails with TypeError, spherepack needs a package that is not a dependency, single rows and columns give missing values only."
  },
  {
   "property": "C172",
   "status": "proved",
   "theorems": [
    "c172_events",
    "c172_intervals",
    "c172_dots",
    "c172_fit",
    "c172_curve",
    "c172_units",
    "c172_figures",
    "c172_top",
    "c172_percentiles",
    "c172_quantiles",
    "c172_limits",
    "c172_lagged",
    "c172_missing",
    "c172_frequency",
    "c172_levels",
    "c172_range",
    "c172_all"
   ],
   "note": "Drawing is not modelled; matplotlib's attribute color_cycle, gone from newer versions, is not modelled."
  },
  {
   "property": "C173",
   "status": "partial",
   "theorems": [
    "c173_zeros_refuted",
    "c173_zeros_always_refuted",
    "c173_dot_units_refuted",
    "c173_kmh_refuted",
    "c173_range_refuted",
    "c173_cut_refuted",
    "c173_outside_refuted",
    "c173_many_refuted",
    "c173_labels_refuted",
    "c173_storms_refuted"
   ],
   "note": "False: days without events are dots of speed 0 whenever there are fewer records than years; dots stay in m/s; unit kmh is labelled km/h but not converted; a lower bound that is missing or not positive for the shortest interval hides the whole range; range and dots are cut at the top; places outside the grid take the edge; more records than days stops all later figures; lagged figures swap the labels and pair values across storms."
  },
  {
   "property": "C174",
   "status": "proved",
   "theorems": [
    "c174_balance",
    "c174_double",
    "c174_speed",
    "c174_powell",
    "c174_willoughby"
   ],
   "note": "The published balance is V^2/r + |f|V = (dp/dr)/rho; r above the radius of maximum winds for Holland, every r for the outer double profile with f > 0."
  },
  {
   "property": "C175",
   "status": "partial",
   "theorems": [
    "c175_core_refuted",
    "c175_double_refuted"
   ],
   "note": "At the radius of maximum winds the Coriolis force of the maximum wind is unbalanced; the southern double profile adds r|f| where it should subtract it, so its wind is too strong at every radius."
  },
  {
   "property": "C176",
   "status": "proved",
   "theorems": [
    "c176_layer",
    "c176_motion"
   ],
   "note": "Where (V/r)^2 equals the inertial stability exactly, the code divides by zero; that case is excluded. sqrt of negative numbers does not occur under the hypotheses."
  },
  {
   "property": "C177",
   "status": "proved",
   "theorems": [
    "c177_length",
    "c177_label",
    "c177_drawn",
    "c177_refused",
    "c177_default"
   ],
   "note": ""
  },
  {
   "property": "C178",
   "status": "partial",
   "theorems": [
    "c178_far_refuted",
    "c178_jump_refuted",
    "c178_small_map_refuted",
    "c178_zero_refuted",
    "c178_unit_refuted",
    "c178_undefined_refuted"
   ],
   "note": "c178_far_refuted and c178_jump_refuted: the exponential search never ends when the length is beyond every distance on the map, and the bisection never ends when the distance jumps over it; c178_small_map_refuted: no default bar on maps under five kilometres; c178_zero_refuted: a length of zero counts as none; c178_unit_refuted: the default length is in kilometres whatever the unit."
  },
  {
   "property": "C179",
   "status": "proved",
   "theorems": [
    "c179_axes",
    "c179_cells",
    "c179_order",
    "c179_genesis",
    "c179_starts",
    "c179_genesis_file"
   ],
   "note": "EnsModel models the statistics over simulations, the transposition on saving and the genesis density with the kernel density estimate as a parameter; exact rationals instead of floats."
  },
  {
   "property": "C180",
   "status": "partial",
   "theorems": [
    "c180_mean_refuted",
    "c180_few_simulations_refuted",
    "c180_few_storms_refuted",
    "c180_years_refuted",
    "c180_crossings_refuted",
    "c180_shares_refuted",
    "c180_outside_refuted"
   ],
   "note": "False. Track density files need 41 simulations and genesis density files 3, because run draws samples with fixed numbers before saving (IndexError). A set of tracks with at most two starting points in the domain raises in KDEMultivariate. One exceptional simulation in thirty puts the mean above the upper value. The genesis density, with units of TCs per grid per year, ignores the years, and the crossing rates, in crossings per year, are shares (density=True): they do not change when every storm occurs twice, they sum to one, and crossings that all lie outside the gates give NaN."
  },
  {
   "property": "C181",
   "status": "proved",
   "theorems": [
    "c181_points",
    "c181_result",
    "c181_increasing",
    "c181_positive"
   ],
   "note": ""
  },
  {
   "property": "C182",
   "status": "partial",
   "theorems": [
    "c182_filled_refuted",
    "c182_negative_refuted",
    "c182_minimum_refuted",
    "c182_days_refuted",
    "c182_objects_refuted"
   ],
   "note": "Disagreements: the least squares fit is not held to scale below location, so a perfect fit can give a level below -90 m/s at one year; minrecords is never read; more records than days in the simulated years raise ValueError; none of the distribution objects ever returns a level (GEV, GPD and EMP name unknown variables, POWER always returns missing values, calculate asks a tuple for its shape)."
  },
  {
   "property": "C183",
   "status": "proved",
   "theorems": [
    "c183_step",
    "c183_floor",
    "c183_memory",
    "c183_fades",
    "c183_track"
   ],
   "note": "The random numbers, the mask and the projection are parameters; the speeds after the first step and the bearing of a whole track are stated in c183_track, every state variable in c183_step and c183_memory."
  },
  {
   "property": "C184",
   "status": "proved",
   "theorems": [
    "c184_describes",
    "c184_autocorrelation",
    "c184_saved",
    "c184_autocorrelation_land",
    "c184_saved_all"
   ],
   "note": "c184_describes, c184_autocorrelation and c184_saved hold for every sample that is not empty (of two or more values for the autocorrelation). Placement on the map is C123."
  },
  {
   "property": "C185",
   "status": "partial",
   "theorems": [
    "c185_bearing_refuted",
    "c185_pressure_refuted"
   ],
   "note": "Refuted. The mean and standard deviation of the bearing are computed from radians and never converted, the minimum is in degrees, and all are labelled degrees: c185_bearing_refuted shows the mean below the minimum for every sample of bearings beyond 2 pi. GenerateStats.save labels every parameter m/s (c185_pressure_refuted)."
  },
  {
   "property": "C186",
   "status": "proved",
   "theorems": [
    "c186_band",
    "c186_outside"
   ],
   "note": "c186_band and c186_outside hold for every rational latitude."
  },
  {
   "property": "C187",
   "status": "partial",
   "theorems": [
    "c187_existing_refuted",
    "c187_convert_refuted",
    "c187_back_refuted",
    "c187_save_refuted",
    "c187_intended"
   ],
   "note": "Refuted. Both conversions use the built-in type int where the longitude is meant and always raise TypeError, so saving always fails, after the file has been created (c187_save_refuted). c187_intended shows that the line is right if the longitude takes the place of the type, for longitudes from 180 degrees west on."
  },
  {
   "property": "C188",
   "status": "proved",
   "theorems": [
    "c188_lagged",
    "c188_one_cyclone",
    "c188_theta",
    "c188_standard",
    "c188_steps"
   ],
   "note": ""
  },
  {
   "property": "C189",
   "status": "partial",
   "theorems": [
    "c189_minimum_partial",
    "c189_last_refuted",
    "c189_joined_refuted",
    "c189_steps_refuted",
    "c189_wrap_refuted",
    "c189_correlation_refuted",
    "c189_few_refuted",
    "c189_bearing_refuted",
    "c189_bins_refuted"
   ],
   "note": "Partial: the minima are right for all cyclones as far as their records come before the last record of the file. Refuted: the loop leaves out the last record, so that the lowest pressure of the last cyclone, or a last cyclone of one record, is not seen; minima above 1015 hPa are outside the bins; pairs of pressures join the end of a cyclone with the start of the next; the differences of longitude at t are on the axis labelled t-1; a step west across Greenwich stays +358 or so; the correlation is always that of records 4 to 8 (the indices come from the tick labels), and fewer than 8 records raise IndexError; the bearing figure takes the cosine of half the degrees as if they were radians, so that distinct directions coincide. Also plotRegression reads a variable before it is set, and the text named r^2 shows r (not modelled)."
  },
  {
   "property": "C190",
   "status": "proved",
   "theorems": [
    "c190_density",
    "c190_mean_range",
    "c190_variance",
    "c190_constant",
    "c190_units",
    "c190_default",
    "c190_size",
    "c190_mode",
    "c190_potential"
   ],
   "note": ""
  },
  {
   "property": "C191",
   "status": "partial",
   "theorems": [
    "c191_spread_refuted"
   ],
   "note": "Refuted: the function gives the square root of 1 - R, while the standard deviation is approached by the square root of 2 (1 - R) (or of -2 ln R). For two samples at a distance a on both sides of their mean the ordinary deviation is a and the value is sqrt 2 sin(a/2) < 3a/4, however small a is; simulated bearings scatter too little by a factor of about 0.71."
  },
  {
   "property": "C192",
   "status": "proved",
   "theorems": [
    "c192_found_inside",
    "c192_accepted",
    "c192_units",
    "c192_length",
    "c192_errors",
    "c192_found",
    "c192_chosen"
   ],
   "note": ""
  },
  {
   "property": "C193",
   "status": "partial",
   "theorems": [
    "c193_far_refuted",
    "c193_edge_refuted",
    "c193_small_refuted"
   ],
   "note": "Refuted: the doubling loop does not end if no point of the line is as far away as the length (distances on the earth are limited), the halving loop does not end if the line leaves the projection (NaN) before the length is reached, and for maps from 100 m to 4.75 km wide the choice of a length recurses through negative numbers without end (RecursionError), because the first character of numbers below 1 is 0."
  },
  {
   "property": "C194",
   "status": "proved",
   "theorems": [
    "c194_value",
    "c194_default",
    "c194_no_file",
    "c194_order"
   ],
   "note": ""
  },
  {
   "property": "C195",
   "status": "partial",
   "theorems": [
    "c195_silent_refuted",
    "c195_shadowed_refuted",
    "c195_list_refuted",
    "c195_evaluated_refuted",
    "c195_other_file_refuted"
   ],
   "note": "Refuted: without a default an option that is not set gives None and no exception; a default given in the call is not used where the built-in defaults of config.py set the option (LogLevel, FieldDelimiter); with a list, tuple or array as default the call gives None although the option is set; without a default a text that is a Python expression comes back evaluated (path=input as the builtin function) and errors other than NameError and SyntaxError end the call; the file of any call after the first one that read a file is ignored."
  },
  {
   "property": "C196",
   "status": "proved",
   "theorems": [
    "c196_all",
    "c196_lazy",
    "c196_failure",
    "c196_kinds",
    "c196_no_directory"
   ],
   "note": ""
  },
  {
   "property": "C197",
   "status": "partial",
   "theorems": [
    "c197_late_refuted",
    "c197_every_process_refuted",
    "c197_stray_refuted",
    "c197_wind_refuted"
   ],
   "note": "Refuted: the TypeError comes on iteration and not at the call; every process gets all tracks (only the copy in wind/__init__.py uses balanced); any entry whose name begins with 'tracks' that is not a NetCDF track file ends the iteration and loses the files after it; wind.loadTracksFromPath always raises TypeError because it calls a function of three arguments with one."
  },
  {
   "property": "C198",
   "status": "proved",
   "theorems": [
    "c198_beside",
    "c198_grid",
    "c198_records"
   ],
   "note": ""
  },
  {
   "property": "C199",
   "status": "partial",
   "theorems": [
    "c199_own_refuted",
    "c199_descending_refuted",
    "c199_half_cell_refuted",
    "c199_spacing_refuted",
    "c199_again_refuted",
    "c199_repeated_refuted",
    "c199_small_refuted"
   ],
   "note": "False: latitudes from north to south are turned over all the same, each value is read at the latitude of the other side (c199_descending_refuted); the reader's coordinates are half a cell off those of the data (c199_half_cell_refuted); the latitudes get the spacing of the longitudes (c199_spacing_refuted); a file that exists stops the tool, as file() is not in Python 3 (c199_again_refuted), so a repeated record value ends the run (c199_repeated_refuted); values below 0.005 become zero, as probabilities and rates are (c199_small_refuted)."
  },
  {
   "property": "C200",
   "status": "proved",
   "theorems": [
    "c200_tile_names",
    "c200_tile_same",
    "c200_segments",
    "c200_sound",
    "c200_gust",
    "c200_work",
    "c200_upload",
    "c200_back",
    "c200_raw",
    "c200_ends"
   ],
   "note": ""
  },
  {
   "property": "C201",
   "status": "partial",
   "theorems": [
    "c201_rest_refuted",
    "c201_type_refuted",
    "c201_order_refuted",
    "c201_short_refuted",
    "c201_slash_refuted",
    "c201_none_refuted",
    "c201_half_refuted"
   ],
   "note": "False: a failed download ends its thread, the remaining files of the type are not fetched and the run goes on (c201_rest_refuted, c201_type_refuted); the gust file is fetched before the directory is made, so a temporary directory named in the settings or a local working directory that is not there ends the run (c201_order_refuted); an empty path and /vsis3 alone raise IndexError (c201_short_refuted); a path with a slash at the end is accepted as a file (c201_slash_refuted); a download of no files raises UnboundLocalError (c201_none_refuted); if a result is missing those before it are uploaded and those after it are not (c201_half_refuted)."
  },
  {
   "property": "C202",
   "status": "proved",
   "theorems": [
    "c202_given",
    "c202_both",
    "c202_cut"
   ],
   "note": ""
  },
  {
   "property": "C203",
   "status": "partial",
   "theorems": [
    "c203_partial_refuted",
    "c203_inverted_refuted",
    "c203_apart_refuted",
    "c203_south_refuted",
    "c203_turned_refuted",
    "c203_edge_refuted"
   ],
   "note": "False: with one key missing the others are ignored (c203_partial_refuted); an extent the wrong way round passes (c203_inverted_refuted); fields apart from each other give an extent the wrong way round (c203_apart_refuted); a raster stored from south to north gives an extent without a point (c203_south_refuted) and a turned one leaves out its corners (c203_turned_refuted); the outer half of the outer gust cells is left out (c203_edge_refuted)."
  },
  {
   "property": "C204",
   "status": "proved",
   "theorems": [
    "c204_segments",
    "c204_legend",
    "c204_rising"
   ],
   "note": ""
  },
  {
   "property": "C205",
   "status": "partial",
   "theorems": [
    "c205_map_refuted",
    "c205_weak_refuted",
    "c205_last_refuted",
    "c205_single_refuted",
    "c205_default_refuted"
   ],
   "note": "False: createMap returns the axes, and calling them raises TypeError for every map with a track (c205_map_refuted); known winds below 17.5 m/s are labelled No data (c205_weak_refuted); the wind at the last position is not shown (c205_last_refuted), nor a track of one position (c205_single_refuted); without winds all segments are labelled No data (c205_default_refuted)."
  },
  {
   "property": "C206",
   "status": "partial",
   "theorems": [
    "c206_accepted_partial",
    "c206_refused_partial",
    "c206_cell_partial",
    "c206_nan_partial",
    "c206_files_partial",
    "c206_before_partial",
    "c206_name_partial",
    "c206_taken_partial",
    "c206_again_partial",
    "c206_never_refuted",
    "c206_empty_refuted",
    "c206_dir_refuted",
    "c206_mixed_refuted",
    "c206_where_refuted",
    "c206_larger_refuted"
   ],
   "note": "Proved of lines 137-178 once the reduced multipliers are there; the program never gets so far, as line 32 raises AttributeError; also false for cells mixed with nodata, other grids and directories whose names contain gust."
  },
  {
   "property": "C207",
   "status": "partial",
   "theorems": [
    "c207_masked_partial",
    "c207_one_partial",
    "c207_some_partial",
    "c207_minima_partial",
    "c207_rows_partial",
    "c207_init_refuted",
    "c207_two_refuted",
    "c207_missing_refuted",
    "c207_numbers_refuted"
   ],
   "note": "Holds for cells visited by one track, tracks numbered from 0 and readable files; false otherwise, and the constructor always raises AttributeError."
  },
  {
   "property": "C208",
   "status": "partial",
   "theorems": [
    "c208_ages_refuted",
    "c208_historic_refuted",
    "c208_synthetic_refuted",
    "c208_starts_refuted",
    "c208_starts_partial",
    "c208_missing_partial"
   ],
   "note": "False: the evaluation of ages unpacks the list of tracks as if it were an array of 14 columns (ValueError unless there are exactly 14 tracks), the calculation itself uses floats as indices and raises for all records, and a track whose number is not one more than the one before is not seen as a new one. Proved: where numbers follow one another the first records are found; a file that cannot be read is reported."
  },
  {
   "property": "C209",
   "status": "proved",
   "theorems": [
    "c209_first",
    "c209_always",
    "c209_quiet",
    "c209_stamp",
    "c209_fallback"
   ],
   "note": ""
  },
  {
   "property": "C210",
   "status": "partial",
   "theorems": [
    "c210_second_refuted",
    "c210_other_refuted",
    "c210_verbose_refuted",
    "c210_extension_refuted",
    "c210_minute_refuted"
   ],
   "note": "False: a second call in the same process neither opens the second log nor changes the level, its first lines go to the first log. With a handler of another library no log is made at all; with two handlers a verbose log shows nothing on the screen. A name without an extension gets a dot at its end from the stamp. Two runs within a minute have the same stamped name, and a new log empties that of the first run."
  },
  {
   "property": "C211",
   "status": "proved",
   "theorems": [
    "c211_folders",
    "c211_origin",
    "c211_variables",
    "c211_complete",
    "c211_merged",
    "c211_direction",
    "c211_layer",
    "c211_accepts"
   ],
   "note": ""
  },
  {
   "property": "C212",
   "status": "partial",
   "theorems": [
    "c212_exists_refuted",
    "c212_missing_refuted",
    "c212_slash_refuted",
    "c212_comma_refuted",
    "c212_prefix_refuted",
    "c212_stale_refuted",
    "c212_silent_refuted"
   ],
   "note": "False: with the folder of the shielding missing and that of the terrain there, FileExistsError; with the shielding there and the terrain missing, FileNotFoundError during the copies. A raw directory without a slash at the end finds nothing, silently; a working directory without it misses the folders just made. A comma at the end of the list of tiles asks for all tiles, and a name asks for all names it is the start of. Failed translations and directions without files are not noticed. get_multipliers.py does not empty the folders and merges tiles of earlier runs."
  },
  {
   "property": "C213",
   "status": "proved",
   "theorems": [
    "c213_points",
    "c213_cover",
    "c213_mesh"
   ],
   "note": ""
  },
  {
   "property": "C214",
   "status": "partial",
   "theorems": [
    "c214_more_refuted",
    "c214_other_refuted",
    "c214_fine_refuted"
   ],
   "note": "False: with a width that is not a whole number of steps there is one coordinate more than points, beyond the margin; with limits or margins finer than thousandths of a degree the numbers are truncated differently (before and after the difference) and no coordinate may be that of a point; resolutions below a thousandth of a degree give a step of zero and ZeroDivisionError."
  }
 ]
}
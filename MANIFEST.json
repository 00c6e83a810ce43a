{
 "claims": [
  {
   "property": "C01",
   "status": "proved",
   "theorems": [
    "C01_tiles_cover",
    "C01_grid_exists"
   ],
   "note": "For every admissible rounding of float arithmetic (identity and IEEE 53-bit instances are given)."
  },
  {
   "property": "C02",
   "status": "proved",
   "theorems": [
    "C02_tiles_disjoint_iff",
    "C02_disjoint_refuted",
    "C02_tile_is_block"
   ],
   "note": "Exact condition for disjointness; C02_disjoint_refuted exhibits an ordinary raster (3601x3601, 1 arc second, shipped buffer) whose tiles overlap."
  },
  {
   "property": "C03",
   "status": "proved",
   "theorems": [
    "C03_buffered_window",
    "C03_buffer_contains",
    "C03_buffer_reach"
   ],
   "note": "Buffered window is the tile dilated by the buffer and clipped"
  },
  {
   "property": "C04",
   "status": "proved",
   "theorems": [
    "C04_tile_sizes",
    "C04_tile_numbers",
    "C04_tile_list"
   ],
   "note": "Tile enumeration is complete and column-major"
  },
  {
   "property": "C05",
   "status": "proved",
   "theorems": [
    "C05_clip_recovers"
   ],
   "note": "GDAL reading/writing of pixel values is not modelled; sizes, extents and array clipping are."
  },
  {
   "property": "C06",
   "status": "proved",
   "theorems": [
    "C06_lat_lon_centres",
    "C06_lat_lon_exact"
   ],
   "note": "Float version with explicit error bound, and exact version."
  },
  {
   "property": "C07",
   "status": "proved",
   "theorems": [
    "C07_names_distinct_iff"
   ],
   "note": "Exact condition; Python str(float) enters through the specification prints_floats, met by show22."
  },
  {
   "property": "C08",
   "status": "proved",
   "theorems": [
    "C08_tilename_good",
    "C08_paths_agree",
    "C08_tile_recovered",
    "C08_paths_injective"
   ],
   "note": "Tile identity round-trips through file names"
  },
  {
   "property": "C09",
   "status": "proved",
   "theorems": [
    "C09_direction_parsed"
   ],
   "note": "Direction attribute is parsed correctly from file names"
  },
  {
   "property": "C10",
   "status": "proved",
   "theorems": [
    "C10_exactly_once",
    "C10_at_most_once"
   ],
   "note": "Every tile is processed exactly once under any MPI schedule"
  },
  {
   "property": "C11",
   "status": "proved",
   "theorems": [
    "C11_no_deadlock",
    "C11_terminates",
    "C11_clean_end",
    "C11_runs_to_end"
   ],
   "note": "The master/worker protocol never deadlocks and terminates"
  },
  {
   "property": "C12",
   "status": "proved",
   "theorems": [
    "C12_parallel_eq_serial",
    "C12_serial_fails",
    "C12_pipeline",
    "C12_pipeline_serial",
    "C12_tiles_of_grid"
   ],
   "note": "Generic protocol theorem plus the file operations of the real tile pipeline (names, temporaries, outputs)."
  },
  {
   "property": "C13",
   "status": "proved",
   "theorems": [
    "C13_failing_tile_stalls",
    "C13_blocked_state"
   ],
   "note": "A failing tile stalls the run (robustness refuted)"
  },
  {
   "property": "C14",
   "status": "proved",
   "theorems": [
    "C14_phase_order",
    "C14_mkdirs_once",
    "C14_no_deadlock",
    "C14_grid_read_race"
   ],
   "note": "Exact ordering; C14_grid_read_race records that reading the grid on workers is not ordered after folder creation on rank 0."
  },
  {
   "property": "C15",
   "status": "proved",
   "theorems": [
    "C15_partition",
    "C15_owner",
    "C15_balanced",
    "C15_gathered",
    "C15_parallel_conversion"
   ],
   "note": "Static distribution of conversion work is a partition"
  },
  {
   "property": "C16",
   "status": "proved",
   "theorems": [
    "C16_product",
    "C16_all_missing_direction"
   ],
   "note": "Float32 product is a parameter mul; GDAL statistics enter through stats_spec (fail when no pixel is a number)."
  },
  {
   "property": "C17",
   "status": "proved",
   "theorems": [
    "C17_nan_exact",
    "C17_sentinel_exact",
    "C17_sentinel_refuted"
   ],
   "note": "NaN exact; sentinel preservation refuted with exact condition."
  },
  {
   "property": "C18",
   "status": "proved",
   "theorems": [
    "C18_missing_as_ones",
    "C18_missing_fails"
   ],
   "note": "Exact conditions for success and failure."
  },
  {
   "property": "C19",
   "status": "proved",
   "theorems": [
    "C19_maximum",
    "C19_all_missing",
    "C19_sentinel",
    "C19_second_band_zero"
   ],
   "note": "Maximum with NaN propagation; also records the superfluous zero band."
  },
  {
   "property": "C20",
   "status": "proved",
   "theorems": [
    "C20_upwind_ray",
    "C20_in_bounds",
    "C20_lookups_in_range"
   ],
   "note": "Upwind neighbour lookup is in bounds and points upwind"
  },
  {
   "property": "C21",
   "status": "proved",
   "theorems": [
    "C21_mean",
    "C21_stage_full_fetch",
    "C21_tile",
    "C21_metres",
    "C21_few_rows_refuted"
   ],
   "note": "Mean in exact rational arithmetic (Float32 accumulation is not modelled); C21_few_rows_refuted shows the cut by rows in west/east."
  },
  {
   "property": "C22",
   "status": "proved",
   "theorems": [
    "C22_bounds",
    "C22_stage_bounds",
    "C22_uniform",
    "C22_nodata_pulls_refuted"
   ],
   "note": "Exact arithmetic; no-data counts as 1 (C22_nodata_pulls_refuted)."
  },
  {
   "property": "C23",
   "status": "proved",
   "theorems": [
    "C23_exact_condition",
    "C23_zero_width",
    "C23_zero_width_exact",
    "C23_completes",
    "C23_tile_fails",
    "C23_refuted",
    "C23_coarse_refuted"
   ],
   "note": "Exact condition for every admissible rounding; C23_refuted and C23_coarse_refuted are concrete failures."
  },
  {
   "property": "C24",
   "status": "proved",
   "theorems": [
    "C24_missing_exact",
    "C24_small_raster",
    "C24_small_raster_refuted",
    "C24_skipped"
   ],
   "note": "Exact conditions, including the small-raster branch where the claim is false."
  },
  {
   "property": "C25",
   "status": "proved",
   "theorems": [
    "C25_tiling_independent",
    "C25_skipped_tile",
    "C25_small_buffer_refuted",
    "C25_grid_tiles"
   ],
   "note": "The mean pixel size is taken to be the same for tile and raster; the code computes it per tile."
  },
  {
   "property": "C26",
   "status": "proved",
   "theorems": [
    "C26_terrain_table",
    "C26_shielding_table"
   ],
   "note": "Terrain and shielding reclassification."
  },
  {
   "property": "C27",
   "status": "proved",
   "theorems": [
    "C27_decreasing",
    "C27_rounded",
    "C27_positive",
    "C27_defined",
    "C27_inverse",
    "C27_unrounded"
   ],
   "note": "Real-number formula (standard library Reals axioms) and its rounded evaluation for any monotone rounding."
  },
  {
   "property": "C28",
   "status": "proved",
   "theorems": [
    "C28_sector",
    "C28_exactly_one",
    "C28_no_direction"
   ],
   "note": "The aspect angle is an input here; trigonometry is not part of this claim."
  },
  {
   "property": "C29",
   "status": "proved",
   "theorems": [
    "C29_normalised",
    "C29_cells",
    "C29_one_sided",
    "C29_reach"
   ],
   "note": "Shielding kernels are normalised and one-sided"
  },
  {
   "property": "C30",
   "status": "proved",
   "theorems": [
    "C30_mean",
    "C30_bounds",
    "C30_unshielded",
    "C30_uniform_edge_refuted"
   ],
   "note": "Exact rational arithmetic. C30_uniform_edge_refuted: a uniform tile does not stay uniform at its edge."
  },
  {
   "property": "C31",
   "status": "proved",
   "theorems": [
    "C31_value",
    "C31_steep_facing",
    "C31_continuous",
    "C31_monotone",
    "C31_range",
    "C31_missing",
    "C31_tile"
   ],
   "note": "Slope correction of shielding"
  },
  {
   "property": "C32",
   "status": "proved",
   "theorems": [
    "C32_independent",
    "C32_coarse_compounds",
    "C32_coarse_refuted"
   ],
   "note": "Independent for pixels up to 100 m; refuted with exact compounding for pixels of 101 m or more."
  },
  {
   "property": "C33",
   "status": "proved",
   "theorems": [
    "C33_flat_slope",
    "C33_no_correction",
    "C33_shift"
   ],
   "note": "slope function enters only through slope(0,0)=0."
  },
  {
   "property": "C34",
   "status": "proved",
   "theorems": [
    "C34_exact",
    "C34_refuted",
    "C34_initially_missing",
    "C34_byte_raster_refuted"
   ],
   "note": "Exact condition; both halves refuted; unsigned-byte rasters never have missing pixels (C34_byte_raster_refuted)."
  },
  {
   "property": "C35",
   "status": "proved",
   "theorems": [
    "C35_ridges",
    "C35_flat"
   ],
   "note": "Peak finder"
  },
  {
   "property": "C36",
   "status": "proved",
   "theorems": [
    "C36_valleys"
   ],
   "note": "Valley finder"
  },
  {
   "property": "C37",
   "status": "proved",
   "theorems": [
    "C37_alternate",
    "C37_pairs",
    "C37_safe"
   ],
   "note": "Ridges and valleys alternate and pair up safely"
  },
  {
   "property": "C38",
   "status": "proved",
   "theorems": [
    "C38_bounds",
    "C38_exact",
    "C38_double",
    "C38_no_rise"
   ],
   "note": "For every rounding meeting fl_line; exact and IEEE double instances are given."
  },
  {
   "property": "C39",
   "status": "proved",
   "theorems": [
    "C39_bounds",
    "C39_exact"
   ],
   "note": "Bounds for every rounding meeting fl_line; closed form in exact arithmetic."
  },
  {
   "property": "C40",
   "status": "proved",
   "theorems": [
    "C40_hill",
    "C40_outside",
    "C40_line",
    "C40_locality_refuted"
   ],
   "note": "Closed form in exact arithmetic; C40_locality_refuted: index -1 wraps round to the last point of the line."
  },
  {
   "property": "C41",
   "status": "proved",
   "theorems": [
    "C41_partition",
    "C41_lines",
    "C41_each_cell_once"
   ],
   "note": "Lines partition the raster in every direction"
  },
  {
   "property": "C42",
   "status": "proved",
   "theorems": [
    "C42_values",
    "C42_monotone",
    "C42_lipschitz",
    "C42_range"
   ],
   "note": "Conservatism removal"
  },
  {
   "property": "C43",
   "status": "proved",
   "theorems": [
    "C43_factor",
    "C43_cases"
   ],
   "note": "The origin test of the code is on x_left and the negated northern edge, as in the model."
  },
  {
   "property": "C44",
   "status": "proved",
   "theorems": [
    "C44_interior",
    "C44_share",
    "C44_share_least",
    "C44_border_refuted"
   ],
   "note": "Interior bound proved; C44_border_refuted: the border of flat land is k/9 with k the cells of the 3x3 window inside the raster."
  },
  {
   "property": "C45",
   "status": "proved",
   "theorems": [
    "C45_total",
    "C45_values"
   ],
   "note": "Float DEM; an integer-typed DEM with a no-data value is not modelled."
  },
  {
   "property": "C46",
   "status": "proved",
   "theorems": [
    "C46_first_variable",
    "C46_others_dropped_refuted",
    "C46_single",
    "C46_multiplier_file"
   ],
   "note": "netCDF4 is a small state machine; C46_others_dropped_refuted: every variable after the first is lost."
  },
  {
   "property": "C47",
   "status": "proved",
   "theorems": [
    "C47_accepted_iff",
    "C47_dimension_key",
    "C47_variable_key",
    "C47_rank",
    "C47_shape_left_open",
    "C47_later_refuted",
    "C47_no_variables"
   ],
   "note": "Exact acceptance condition; C47_later_refuted: later variables are not checked; C47_shape_left_open: the file stays open on a size mismatch."
  },
  {
   "property": "C48",
   "status": "proved",
   "theorems": [
    "C48_corners",
    "C48_between",
    "C48_exact",
    "C48_degenerate_refuted"
   ],
   "note": "Bilinear interpolation of a block"
  },
  {
   "property": "C49",
   "status": "proved",
   "theorems": [
    "C49_closed_form",
    "C49_even",
    "C49_odd_refuted",
    "C49_constant",
    "C49_constant_any_depth",
    "C49_one_row",
    "C49_two_rows_refuted"
   ],
   "note": "Exact rational arithmetic; C49_odd_refuted and C49_two_rows_refuted are the exact failures."
  },
  {
   "property": "C50",
   "status": "proved",
   "theorems": [
    "C50_transposed",
    "C50_right_iff",
    "C50_latitude_refuted",
    "C50_square",
    "C50_square_mean",
    "C50_mean_refuted",
    "C50_pixel",
    "C50_projected"
   ],
   "note": "The sizes actually placed are those of the transposed pixel (C50_transposed); right exactly under symmetry (C50_right_iff). The distance function (coordinate transformation and vinc_dist) is a parameter."
  },
  {
   "property": "C51",
   "status": "proved",
   "theorems": [
    "C51_section_value",
    "C51_default_value",
    "C51_unset",
    "C51_override",
    "C51_kept",
    "C51_missing_file",
    "C51_accepted_iff"
   ],
   "note": "ConfigParser on parsed files (sections, options, values); interpolation and the textual syntax of the file are not modelled."
  },
  {
   "property": "C52",
   "status": "proved",
   "theorems": [
    "C52_mutex",
    "C52_no_deadlock",
    "C52_once",
    "C52_falsy_refuted",
    "C52_once_nested",
    "C52_nested_hangs",
    "C52_no_other_hang"
   ],
   "note": "Any number of threads, any interleaving of the lock and check steps; C52_falsy_refuted is the exact failure for falsy instances, and C52_nested_hangs that for constructors that call their own class, which is the only way to hang (C52_no_other_hang)."
  },
  {
   "property": "C53",
   "status": "proved",
   "theorems": [
    "C53_dummy_comm",
    "C53_root_only",
    "C53_serial_conversion"
   ],
   "note": "Serial fallback of the MPI communicator"
  },
  {
   "property": "C54",
   "status": "proved",
   "theorems": [
    "C54_decodes",
    "C54_transparent",
    "C54_logged",
    "C54_backwards"
   ],
   "note": "For every rounding satisfying fl_ok; time values below 2^53 seconds."
  },
  {
   "property": "C55",
   "status": "proved",
   "theorems": [
    "C55_whole",
    "C55_block_size",
    "C55_zero_refuted"
   ],
   "note": "The hash is any streaming hash; C55_zero_refuted is the block size 0 exception."
  },
  {
   "property": "C56",
   "status": "proved",
   "theorems": [
    "C56_decodes",
    "C56_range",
    "C56_only_cat"
   ],
   "note": "Land-use/settlement code is decodable"
  },
  {
   "property": "C57",
   "status": "proved",
   "theorems": [
    "C57_groups",
    "C57_points",
    "C57_once",
    "C57_order",
    "C57_succeeds_iff",
    "C57_values_refuted",
    "C57_values_iff"
   ],
   "note": "Geometry operations are parameters; integer attribute values are not modelled. C57_values_refuted: None, empty and \"None\" are merged."
  },
  {
   "property": "C58",
   "status": "proved",
   "theorems": [
    "C58_joined",
    "C58_rounded",
    "C58_strict",
    "C58_succeeds_iff",
    "C58_tie_refuted",
    "C58_touching_refuted"
   ],
   "note": "Geometry operations and the search tree are parameters (tree_ok); exact division in C58_joined, any fl_ok rounding in C58_rounded. C58_tie_refuted and C58_touching_refuted are the limits of the English property."
  },
  {
   "property": "C59",
   "status": "proved",
   "theorems": [
    "C59_succeeds_iff",
    "C59_fresh",
    "C59_inputs_deleted",
    "C59_blocked"
   ],
   "note": "Output folder other than the root of the file system; links and permissions are not modelled."
  },
  {
   "property": "C60",
   "status": "proved",
   "theorems": [
    "C60_temporaries_removed",
    "C60_empty_tile",
    "C60_crash_points",
    "C60_other_files"
   ],
   "note": "All crash points of a tile; *.xml side files are not modelled."
  },
  {
   "property": "C61",
   "status": "proved",
   "theorems": [
    "C61_absolute",
    "C61_cwd_moved",
    "C61_relative_iff",
    "C61_relative_refuted"
   ],
   "note": "Single-process run. C61_relative_iff: with a relative folder a run completes exactly when no tile has data; C61_absolute: with an absolute one it always does."
  },
  {
   "property": "C62",
   "status": "proved",
   "theorems": [
    "C62_fuel",
    "C62_close",
    "C62_terminates",
    "C62_geodesic",
    "C62_errors",
    "C62_longitude",
    "C62_symmetric",
    "C62_sphere",
    "C62_meridian",
    "C62_between"
   ],
   "note": "The formulae over the real numbers (no rounding); Bessel's description of geodesics is the specification (VincSpec.geodesic). Over the reals two points exactly on the equator divide by zero; in floating point cos(asin 1)**2 is about 4e-33 and the code carries on, so that error is not claimed of the program. Arcs above 2.4 radians: answers, when given, are right; termination is not claimed (the iteration is known to fail near antipodes)."
  },
  {
   "property": "C63",
   "status": "proved",
   "theorems": [
    "C63_shared_name_refuted",
    "C63_distinct_names_safe"
   ],
   "note": "Tiles that share a name interfere (exact condition)"
  },
  {
   "property": "C64",
   "status": "proved",
   "theorems": [
    "C64_converted_tiles",
    "C64_end_to_end",
    "C64_no_land_cover_refuted"
   ],
   "note": "The whole run produces the product of the stage results"
  },
  {
   "property": "C65",
   "status": "proved",
   "theorems": [
    "C65_tiling_independent",
    "C65_grid_tiles"
   ],
   "note": "The mean pixel width is the same argument for tile and raster; the code computes it per tile."
  },
  {
   "property": "C66",
   "status": "proved",
   "theorems": [
    "C66_crop",
    "C66_kept"
   ],
   "note": "Geometry operations are parameters."
  },
  {
   "property": "C67",
   "status": "proved",
   "theorems": [
    "C67_preparation",
    "C67_succeeds"
   ],
   "note": "For any relative error e of the area ratios (0 for exact arithmetic, 2^-53 for doubles); two attribute names must differ."
  },
  {
   "property": "C68",
   "status": "proved",
   "theorems": [
    "C68_slope",
    "C68_faces_downhill",
    "C68_missing",
    "C68_plane",
    "C68_edge_refuted"
   ],
   "note": "arctan, hypot and arctan2 are real functions (Reals axioms); the code's numerical versions are any functions within eps degrees of them. C68_edge_refuted is the halved gradient at the raster edge."
  },
  {
   "property": "C69",
   "status": "proved",
   "theorems": [
    "C69_pixel_size",
    "C69_tiny"
   ],
   "note": "Over the reals, with vinc_dist as modelled for C62 and the identity as coordinate transformation. Pixels centred exactly on the equator divide by zero in the real-number model only (see C62)."
  },
  {
   "property": "C70",
   "status": "proved",
   "theorems": [
    "C70_direct",
    "C70_sphere",
    "C70_round_trip",
    "C70_zero_refuted",
    "C70_backwards_refuted"
   ],
   "note": "Over the real numbers. The model keeps the misplaced parenthesis of vincenty.py:344-352; its effect is the f^3/25 in the length."
  },
  {
   "property": "C71",
   "status": "proved",
   "theorems": [
    "C71_attributes",
    "C71_requests",
    "C71_sphere",
    "C71_same_point_refuted",
    "C71_ellipsoid",
    "C71_step_geodesic"
   ],
   "note": "Over the real numbers; the iterators returned for a sphere are modelled as lists. That the last step of an ellipsoidal line ends at the second end is not claimed: the code appends the end point itself."
  },
  {
   "property": "C72",
   "status": "proved",
   "theorems": [
    "C72_metadata",
    "C72_descriptions",
    "C72_failures",
    "C72_git_refuted",
    "C72_config_refuted",
    "C72_grid_mapping_refuted"
   ],
   "note": "The source version, user and time are inputs; a failing version lookup is one of them. The _FillValue attribute and failures to open the file are not modelled."
  },
  {
   "property": "C73",
   "status": "proved",
   "theorems": [
    "C73_named_file",
    "C73_fallback",
    "C73_stamp",
    "C73_calls",
    "C73_second_file_refuted"
   ],
   "note": "Real paths, and which directories can be made, are parameters; parents made by makedirs are not tracked; the text of the messages is not modelled. C73_second_file_refuted is the documented expectation that fails."
  },
  {
   "property": "C74",
   "status": "proved",
   "theorems": [
    "C74_distinct",
    "C74_names",
    "C74_place",
    "C74_single",
    "C74_progress",
    "C74_race_refuted"
   ],
   "note": "Checking for the directory and making it are two atomic steps; the name of the log directory is a real path, as is the working directory. C74_race_refuted is the expectation that fails."
  },
  {
   "property": "C75",
   "status": "proved",
   "theorems": [
    "C75_conservative",
    "C75_open",
    "C75_never_done",
    "C75_no_worker_ends",
    "C75_waits_forever",
    "C75_serial"
   ],
   "note": "The expectation that a failing run ends is refuted for parallel runs. A failing cut leaves the files as they were; what the MPI launcher does about a process that has raised is not modelled."
  },
  {
   "property": "C76",
   "status": "proved",
   "theorems": [
    "C76_grid",
    "C76_values",
    "C76_classes",
    "C76_tile",
    "C76_large_refuted",
    "C76_outside_refuted"
   ],
   "note": "gdal.ReprojectImage with nearest-neighbour resampling is modelled as the pixel containing the centre, with exact coordinates and an arbitrary coordinate transformation (identity within one projection); its approximation of transformations, other resampling methods and rotated rasters are not modelled. C76_large_refuted and C76_outside_refuted are the expectations that fail."
  },
  {
   "property": "C77",
   "status": "proved",
   "theorems": [
    "C77_directions",
    "C77_types",
    "C77_cover_refuted"
   ],
   "note": "GDAL's WriteArray raises ValueError for an array larger than the band, which the code catches; C77_cover_refuted is the expectation that fails."
  },
  {
   "property": "C78",
   "status": "proved",
   "theorems": [
    "C78_grid",
    "C78_values",
    "C78_cases",
    "C78_no_field",
    "C78_prepared",
    "C78_tile",
    "C78_land_cover",
    "C78_script",
    "C78_script_crop",
    "C78_attribute_refuted",
    "C78_stale_refuted",
    "C78_zero_refuted",
    "C78_zero_iff"
   ],
   "note": "GDAL's RasterizeLayer is modelled as burning features in order in the pixels whose centre they cover, with the geometry test and the coordinate transformation as parameters; gdal.Warp with a cutline is a parameter. C78_prepared and C78_land_cover hold for any relative error of the division in the join, which then decides between settlements that share equal areas up to this error. The refuted expectations are C78_attribute_refuted, C78_zero_refuted (exact condition: C78_zero_iff) and C78_stale_refuted."
  },
  {
   "property": "C79",
   "status": "proved",
   "theorems": [
    "C79_executions",
    "C79_reports",
    "C79_end",
    "C79_serial",
    "C79_all_refuted",
    "C79_at_once",
    "C79_serial_refuted"
   ],
   "note": "The callback itself does not raise in the model. C79_all_refuted, C79_at_once and C79_serial_refuted are the expectations that fail."
  },
  {
   "property": "C80",
   "status": "proved",
   "theorems": [
    "C80_line",
    "C80_window",
    "C80_tiles",
    "C80_buffer_refuted",
    "C80_box_refuted"
   ],
   "note": "Exact arithmetic and one pixel size in metres for window and raster. C80_line, C80_window and C80_tiles state when the tiling does not matter (sufficient); C80_buffer_refuted and C80_box_refuted that without it it does."
  },
  {
   "property": "C81",
   "status": "proved",
   "theorems": [
    "C81_terrain",
    "C81_shielding",
    "C81_same",
    "C81_outcome",
    "C81_line_ends",
    "C81_unreadable",
    "C81_one_bad_category_refuted",
    "C81_bad_category_run_refuted",
    "C81_short_row",
    "C81_documented_table_refuted",
    "C81_documented_shielding_refuted",
    "C81_no_file_refuted",
    "C81_refused",
    "C81_shielding_model"
   ],
   "note": "The library's tokenizer, header and type-inference rules for the call the code makes (comment='#', index_col=False) are modelled; its number syntax is any function from fields to numbers. Carriage returns without a newline and boolean columns are not covered."
  },
  {
   "property": "C82",
   "status": "proved",
   "theorems": [
    "C82_incomplete",
    "C82_guarded",
    "C82_outcome",
    "C82_results_lost_refuted",
    "C82_dem_inside",
    "C82_log_inside",
    "C82_log_elsewhere"
   ],
   "note": "One process. Which words float() and getboolean() accept, which log levels exist, what file names stand for and which files GDAL opens are any functions. Permissions, symbolic links in the output folder and rasters that are folders are not modelled."
  },
  {
   "property": "C83",
   "status": "proved",
   "theorems": [
    "C83_terrain",
    "C83_terrain_strip_refuted",
    "C83_topographic",
    "C83_shielding",
    "C83_shielding_coarse_refuted",
    "C83_even_handed"
   ],
   "note": "Rasters as exact rationals. The pixel size used for the reach is the same for both tiles; the per-pixel sizes of the shielding stage turn with the raster. Even-handedness is a hypothesis on the two numerical functions (arctan, arctan2); C83_even_handed exhibits a pair deciding the sector exactly."
  },
  {
   "property": "C84",
   "status": "proved",
   "theorems": [
    "C84_meaning",
    "C84_one_meaning",
    "C84_line_ends",
    "C84_rejected",
    "C84_flush",
    "C84_seen",
    "C84_loads_iff",
    "C84_inline_remark_refuted",
    "C84_deeper_refuted"
   ],
   "note": "The layer of RawConfigParser._read above the sections and options of C51. Proved as an equivalence between the scanner and an independent grammar of documents, in both directions; the two expectations that fail are refuted with witnesses. The repository's own file is parsed whole as an example. ASCII text; characters above 127 count as letters."
  },
  {
   "property": "C85",
   "status": "proved",
   "theorems": [
    "C85_datum",
    "C85_metres",
    "C85_blanks",
    "C85_fraction_refuted",
    "C85_gap_refuted",
    "C85_tasmania_refuted"
   ],
   "note": "Both halves come from one lemma: the line computation is unchanged by a common shift of the whole metres, for every rounding function. The three expectations that fail are refuted by value with witnesses."
  },
  {
   "property": "C86",
   "status": "proved",
   "theorems": [
    "C86_accepted",
    "C86_nothing_else",
    "C86_same_run",
    "C86_missing_file",
    "C86_settings",
    "C86_help",
    "C86_help_only",
    "C86_equals_refuted"
   ],
   "note": "argparse as in Python 3.7, which wmenv.yml asks for; later versions read two odd spellings differently (-vc=F, letters that are no option after -v or -h). Proved as an equivalence between the parser and an independent list of ways of writing. Composed with C51, C84 and C82: C86_settings gives the settings a started run sees from the texts of the files."
  },
  {
   "property": "C87",
   "status": "proved",
   "theorems": [
    "C87_rounding",
    "C87_terrain",
    "C87_terrain_uniform",
    "C87_terrain_bounds",
    "C87_terrain_tiles",
    "C87_shielding",
    "C87_product",
    "C87_same_program",
    "C87_single_sum_refuted"
   ],
   "note": "Exponents are unbounded (no overflow, no underflow). NumPy 1.x promotion rules. The kernels' weights are doubles rounded from 1/n, scipy adds products in double precision in kernel order. C87_same_program: with no rounding this model is the one of C20-C33. The slope and aspect arrays are inputs; topographic multipliers are not covered by the rounding model."
  },
  {
   "property": "C88",
   "status": "proved",
   "theorems": [
    "C88_terrain",
    "C88_terrain_tile",
    "C88_shielding",
    "C88_extremes",
    "C88_seam_refuted"
   ],
   "note": "The mean pixel size of a tile is a parameter here; C62 and C69 to C71 say how pixel sizes arise. Slopes also use the pixel sizes of the tile, through single cells and not the mean, see C65. The two equivalences quantify over all rasters, so a particular raster may agree although the numbers differ. Removes the assumption of C25 that tile and raster share one mean pixel size."
  },
  {
   "property": "C89",
   "status": "proved",
   "theorems": [
    "C89_tile",
    "C89_run"
   ],
   "note": "Composition of C05, C25, C45, C64, C65, C76 and C88. C89_tile is about the files of one tile, C89_run about the combined raster after a run. Assumed: the elevation raster declares no missing heights and does not hold 32 bit integers (C91); the pixel-size grids of the tile are the part of the raster's grids; the land cover does not change within 1/2048 of a pixel around a pixel centre (the transform onto the tile may move the centre by that much); the projection of a raster onto itself is the identity. The topographic multiplier is that of the buffered tile: topographic multipliers depend on the whole line through a tile (C80), so no whole-raster equality holds for them. Rounding of the stored numbers is C87's subject."
  },
  {
   "property": "C90",
   "status": "proved",
   "theorems": [
    "C90_terrain_monotone",
    "C90_terrain_error",
    "C90_shielding_monotone",
    "C90_shielding_error",
    "C90_no_growth_refuted"
   ],
   "note": "Pixels missing in one run have to be missing in the other (a missing pixel counts as 1 for its neighbours). For shielding no class may be declared missing, as in a run (C89). Rounding of the stored values adds what C87 says. For pixels above 101 m the shielding directions compound (C32), and so would the factor."
  },
  {
   "property": "C91",
   "status": "proved",
   "theorems": [
    "C91_types",
    "C91_run"
   ],
   "note": "Rests on NumPy refusing to convert NaN to an integer on assignment (ValueError: cannot convert float NaN to integer) also when the index selects no cell; the code assigns NaN in both branches of topo_mult.py:66-69. The shielding stage converts to float first, so it is not affected. A failing tile stalls or ends the run as in C13."
  },
  {
   "property": "C92",
   "status": "proved",
   "theorems": [
    "C92_outside",
    "C92_recovery",
    "C92_rerun_possible",
    "C92_convert_resumes",
    "C92_convert_only_refuted"
   ],
   "note": "Paths are compared as text (links and .. left out); log files and virtual rasters are not on the modelled disk; the elevation raster is assumed not to be below the output folder (else it is deleted, C59). C92_convert_only_refuted is a concrete case: a one pixel tile stopped between its shielding and topographic stages gives 27/40 instead of 54/40 in the maximum raster, because a missing file counts as ones (C18)."
  },
  {
   "property": "C93",
   "status": "proved",
   "theorems": [
    "C93_stretch",
    "C93_line",
    "C93_limit_refuted"
   ],
   "note": "Doubles have exponents of any size (no overflow or underflow). The last point is left out because of the index that wraps round (C40)."
  },
  {
   "property": "C94",
   "status": "proved",
   "theorems": [
    "C94_stage",
    "C94_range",
    "C94_flat",
    "C94_direct_sums"
   ],
   "note": "Uses C93 for the lines. SciPy picks direct sums or Fourier transforms for the smoothing: the method is a parameter with an error bound, and direct sums in double precision are shown to meet it. The limits are those of C93, on which the claim is false."
  },
  {
   "property": "C95",
   "status": "proved",
   "theorems": [
    "C95_module_path",
    "C95_config_file",
    "C95_program_version",
    "C95_level",
    "C95_level_too_high",
    "C95_module_name",
    "C95_module_name_refuted",
    "C95_save_bare_refuted",
    "C95_save",
    "C95_stat",
    "C95_fatal_status_refuted"
   ],
   "note": "The documented behaviour fails in the places listed; each is refuted or characterised exactly. os.path.realpath, isdir, makedirs and numpy.savetxt are parameters."
  },
  {
   "property": "C96",
   "status": "proved",
   "theorems": [
    "C96_binding",
    "C96_logged",
    "C96_transparent",
    "C96_off",
    "C96_not_run",
    "C96_func_refuted",
    "C96_only_func",
    "C96_interpolation",
    "C96_pixel_sizes",
    "C96_finished_count"
   ],
   "note": "inspect.getcallargs is modelled with its checks; keyword-only parameters are not (the code uses none). Refuted for arguments passed by the keyword func, and exactly for those."
  },
  {
   "property": "C97",
   "status": "proved",
   "theorems": [
    "C97_rejected",
    "C97_stopped",
    "C97_last_file",
    "C97_help",
    "C97_files",
    "C97_succeeds",
    "C97_land_cover",
    "C97_missing_refuted"
   ],
   "note": "False only for a named file that does not exist, stated as a refuted theorem. Vector files and rasters are separate name spaces; field names are not cut to 10 characters."
  },
  {
   "property": "C98",
   "status": "proved",
   "theorems": [
    "C98_accepted",
    "C98_unambiguous",
    "C98_required",
    "C98_rasterize",
    "C98_rasterize_crop",
    "C98_missing",
    "C98_attribute_refuted",
    "C98_mpi_path"
   ],
   "note": "The claim that -a chooses the attribute is false and refuted in the strong form that it never has an effect. argparse is modelled for options with one value (Python 3.7 rules), with ASCII digits in negative numbers."
  },
  {
   "property": "C99",
   "status": "proved",
   "theorems": [
    "C99_starts",
    "C99_documented_refuted",
    "C99_with_utilities",
    "C99_whose",
    "C99_first_process",
    "C99_preparation",
    "C99_converter"
   ],
   "note": "The claim that the program starts as documented is false and refuted (C99_documented_refuted). Imports are modelled for files as listed in the model: import and from-import statements at the top of each file and names defined by it; libraries are black boxes that load or not."
  },
  {
   "property": "C100",
   "status": "proved",
   "theorems": [
    "C100_mosaics_last",
    "C100_ends",
    "C100_failing_refuted",
    "C100_start_refuted",
    "C100_warning_refuted",
    "C100_completes"
   ],
   "note": "Two expectations are false and refuted: that a failure ends all processes, and that an empty folder gives a warning. scatter and gather are modelled as boxes filled by the sender; a process ends its gather without waiting for rank 0."
  },
  {
   "property": "C101",
   "status": "proved",
   "theorems": [
    "C101_calculated",
    "C101_low_refuted",
    "C101_plain",
    "C101_small",
    "C101_one_pixel",
    "C101_run"
   ],
   "note": "The expectation is false and refuted (C101_low_refuted, C101_plain and the examples); the other theorems give the exact condition. GDAL's algorithm is modelled from its source (alg/gdalchecksum.cpp), which is not in /repo, so it belongs to the trusted base. C101_run instantiates the parameter for the checksum of C60, C64 and C89."
  },
  {
   "property": "C102",
   "status": "proved",
   "theorems": [
    "C102_too_small",
    "C102_large_enough",
    "C102_buffer",
    "C102_last_column_refuted",
    "C102_metres_refuted",
    "C102_no_pixel_size",
    "C102_upside_down_refuted",
    "C102_turned_refuted"
   ],
   "note": "The expectation that every tile of every raster can be calculated is false and refuted (C102_last_column_refuted, C102_metres_refuted, C102_upside_down_refuted, C102_turned_refuted, with rasters as examples); the other theorems give the exact condition. The pixel sizes of a tile are a parameter of the model; the single precision in which they are stored is left out, and so is a raster whose pixels have a size of zero."
  },
  {
   "property": "C103",
   "status": "proved",
   "theorems": [
    "C103_mod_date",
    "C103_raises",
    "C103_order",
    "C103_clocks_refuted",
    "C103_ctime",
    "C103_ctime_equal",
    "C103_ctime_order_refuted",
    "C103_dated_log"
   ],
   "note": "The expectations that later changes have later dates and that fl_get_stat's dates can be compared are false and refuted (C103_clocks_refuted, C103_ctime_order_refuted, with a night of clock change in Tasmania as example). Other formats of fl_mod_date and the C locale's alternatives are not modelled; Python 3 (IOError is OSError)."
  },
  {
   "property": "C104",
   "status": "proved",
   "theorems": [
    "C104_land_cover",
    "C104_code",
    "C104_rows",
    "C104_run"
   ],
   "note": "Composition of C97 and C89 with the tables of C26. The preparation is taken with any relative error of the area ratios (as C97_land_cover); transformations between equal coordinate systems are taken to change nothing; the side conditions on pixel sizes are those of C89."
  },
  {
   "property": "C105",
   "status": "proved",
   "theorems": [
    "C105_number",
    "C105_distinct",
    "C105_fifteen_refuted",
    "C105_digits",
    "C105_matrix",
    "C105_vector",
    "C105_shape_refuted",
    "C105_empty",
    "C105_skip",
    "C105_return_refuted",
    "C105_files",
    "C105_decimal",
    "C105_rows",
    "C105_lines",
    "C105_ragged",
    "C105_missing"
   ],
   "note": "savetxt and genfromtxt are modelled from their documentation and source for formats '%.Ne', comments '%' and vectors and matrices of doubles; infinities, the sign of zero and blanks or underscores within a field are left out. The claims that fail are C105_fifteen_refuted, C105_shape_refuted and C105_return_refuted."
  },
  {
   "property": "C106",
   "status": "proved",
   "theorems": [
    "C106_list",
    "C106_none",
    "C106_array_refuted",
    "C106_one",
    "C106_refused",
    "C106_dimension"
   ],
   "note": "The netCDF4 library is the state machine of C46. The claim that arrays are stored fails: C106_array_refuted and C106_one say when."
  },
  {
   "property": "C107",
   "status": "proved",
   "theorems": [
    "C107_text",
    "C107_last_percent",
    "C107_default",
    "C107_sorted",
    "C107_day_first_refuted",
    "C107_twelve_refuted",
    "C107_raises"
   ],
   "note": "Builds on the calendar of C103. The C library's strftime is modelled in the C locale for %Y %m %d %H %M %S %y %j %b %a %p %I %%; other directives are a parameter. Sorting fails for day-first formats (C107_day_first_refuted) and the twelve-hour clock merges times (C107_twelve_refuted)."
  },
  {
   "property": "C108",
   "status": "proved",
   "theorems": [
    "C108_known",
    "C108_unknown",
    "C108_no_results"
   ],
   "note": "Extends the run of C61 by what an exception leaves behind. As there, a tile with data is taken to have some terrain class, so that the terrain stage saves first. If the output folder cannot be prepared, C59_blocked applies."
  }
 ]
}
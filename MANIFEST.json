{
 "claims": [
  {
   "property": "C01",
   "status": "proved",
   "theorems": [
    "true_apparent_true"
   ],
   "note": "All records with positive wind speed, any angle and boat speed, apparent wind not zero."
  },
  {
   "property": "C02",
   "status": "proved",
   "theorems": [
    "apparent_true_apparent"
   ],
   "note": "All records with positive apparent speed, true wind not zero."
  },
  {
   "property": "C03",
   "status": "proved",
   "theorems": [
    "conversion_is_vector_sum",
    "conversion_undefined_iff",
    "converted_angle_360_refuted"
   ],
   "note": "The vector equation, the sign and the angle range hold for every row; the angle is undefined (nan) exactly for a vanishing converted wind. The extra theorem shows that 360 itself is reached, so the range is not half open."
  },
  {
   "property": "C04",
   "status": "proved",
   "theorems": [
    "conversion_is_rowwise",
    "conversion_validates"
   ],
   "note": "For arrays of any length and width."
  },
  {
   "property": "C05",
   "status": "partial",
   "theorems": [
    "conversion_keeps_argument_partial",
    "conversion_keeps_argument_refuted"
   ],
   "note": "True when all angles already lie in [0,360); false for a float array with other angles, which is normalised in place."
  },
  {
   "property": "C06",
   "status": "proved",
   "theorems": [
    "scaled_norm_value",
    "scaled_norm_is_norm",
    "scaled_norm_other_widths"
   ],
   "note": "Norm axioms for two and three attributes, NotImplementedError for other widths."
  },
  {
   "property": "C07",
   "status": "proved",
   "theorems": [
    "update_appends_rows",
    "update_rejects_mixed_types",
    "update_compress_reuses_last_row",
    "update_compress_otherwise_appends"
   ],
   "note": "Columns of unequal lengths are covered too: the row count grows by the longest given entry."
  },
  {
   "property": "C08",
   "status": "proved",
   "theorems": [
    "concatenate_stacks_rows"
   ],
   "note": "Hypothesis: each input has a column or no rows."
  },
  {
   "property": "C09",
   "status": "proved",
   "theorems": [
    "columns_stay_homogeneous",
    "filter_types_exact",
    "get_by_type_exact"
   ],
   "note": "Invariant over all histories of 16 operations, failing ones included."
  },
  {
   "property": "C10",
   "status": "partial",
   "theorems": [
    "extend_rejected_changes_nothing_partial",
    "update_rejected_refuted",
    "update_rejected_state"
   ],
   "note": "True for extend and append; false for update, which leaves ragged columns behind. The state after a rejected update is given exactly: the entries before the first one that does not fit are added, all old rows stay as they are."
  },
  {
   "property": "C11",
   "status": "partial",
   "theorems": [
    "delete_rows_keeps_the_others",
    "delete_rows_row_count_partial",
    "delete_rows_row_count_refuted"
   ],
   "note": "The columns are right for every index list; n_rows is wrong for repeated indices."
  },
  {
   "property": "C12",
   "status": "partial",
   "theorems": [
    "strip_cols_removes_empty_columns",
    "strip_rows_cuts_empty_rows_partial",
    "strip_rows_row_count_refuted",
    "strip_terminates_refuted",
    "strip_rows_empty_table_raises"
   ],
   "note": "Columns right; n_rows is stale after strip('rows'), and the loop does not end without columns."
  },
  {
   "property": "C13",
   "status": "proved",
   "theorems": [
    "rename_only_changes_the_key",
    "rename_rejects"
   ],
   "note": ""
  },
  {
   "property": "C14",
   "status": "partial",
   "theorems": [
    "standard_key_stable",
    "free_key_search_ends",
    "standard_keys_lose_nothing",
    "standard_format_partial",
    "datetime_joined",
    "standard_format_refuted",
    "standard_key_meaning"
   ],
   "note": "False for separator-only keys (IndexError) and for date+time beside a datetime column (ragged columns)."
  },
  {
   "property": "C15",
   "status": "proved",
   "theorems": [
    "mask_keeps_marked_rows",
    "slice_keeps_named_columns",
    "mask_and_slice_commute",
    "row_access",
    "iteration_yields_rows",
    "filter_types_exact"
   ],
   "note": ""
  },
  {
   "property": "C16",
   "status": "partial",
   "theorems": [
    "weighted_mask",
    "weighted_extend",
    "weighted_scalar_partial",
    "weighted_points_refuted"
   ],
   "note": "Masking and extending keep alignment; a length mismatch does not raise in the constructor."
  },
  {
   "property": "C17",
   "status": "proved",
   "theorems": [
    "table_returns_entries"
   ],
   "note": "Distinct winds are assumed as in the statement; table_duplicates_refuted shows what happens otherwise."
  },
  {
   "property": "C18",
   "status": "proved",
   "theorems": [
    "table_resolutions",
    "table_given_winds",
    "table_steps",
    "table_rejects",
    "table_default_winds"
   ],
   "note": ""
  },
  {
   "property": "C19",
   "status": "partial",
   "theorems": [
    "change_entries_changes",
    "change_entries_rejects",
    "change_entries_unsorted_refuted",
    "change_entries_set"
   ],
   "note": "Proved for ascending selections in tables with distinct winds; false for selections in other orders (finding): order and repetitions in the lists make no difference (change_entries_set), the values are always distributed in ascending order."
  },
  {
   "property": "C20",
   "status": "proved",
   "theorems": [
    "symmetrize_entries",
    "symmetrize_symmetric",
    "symmetrize_twice_refuted"
   ],
   "note": ""
  },
  {
   "property": "C21",
   "status": "proved",
   "theorems": [
    "table_hro_round_trip",
    "table_extern_round_trip",
    "table_csv_empty_refuted"
   ],
   "note": "csv splitting and number printing are parameters; the numbers of the table are assumed to survive printing and reading. Tables with empty resolution (step equal to the maximum) cannot be read back."
  },
  {
   "property": "C22",
   "status": "proved",
   "theorems": [
    "table_call_in_range",
    "table_call_default_in_range"
   ],
   "note": ""
  },
  {
   "property": "C23",
   "status": "partial",
   "theorems": [
    "table_slice_listed",
    "table_slice_called",
    "table_slices_order",
    "zero_table_slice_refuted"
   ],
   "note": "False for tables created without boat speeds when a single wind speed is given as a plain number (finding)."
  },
  {
   "property": "C24",
   "status": "partial",
   "theorems": [
    "cloud_keeps_points",
    "cloud_returns_points",
    "cloud_nonpositive",
    "cloud_periodic",
    "cloud_zero_wind_refuted"
   ],
   "note": "Proved for positive wind speeds. Points with wind speed 0 are kept but calling the cloud there raises ValueError (cloud_zero_wind_refuted)."
  },
  {
   "property": "C25",
   "status": "proved",
   "theorems": [
    "add_points_appends",
    "add_points_rejects",
    "add_points_changes_argument_refuted"
   ],
   "note": "Proved. The caller's array is reduced in place as a side effect (add_points_changes_argument_refuted)."
  },
  {
   "property": "C26",
   "status": "proved",
   "theorems": [
    "symmetrize_mirrors"
   ],
   "note": "Proved for all clouds."
  },
  {
   "property": "C27",
   "status": "proved",
   "theorems": [
    "cloud_csv_round_trip",
    "cloud_csv_empty_refuted"
   ],
   "note": "Proved for non-empty clouds whose numbers are readable; the empty cloud is written but raises IndexError when read."
  },
  {
   "property": "C28",
   "status": "partial",
   "theorems": [
    "cloud_call_in_range_partial",
    "cloud_default_times_50",
    "cloud_default_refuted"
   ],
   "note": "False for the default interpolator ArithmeticMeanInterpolator(50), which multiplies by 50; true for scaling factor 1."
  },
  {
   "property": "C29",
   "status": "proved",
   "theorems": [
    "multi_call_best",
    "multi_call_raises",
    "multi_names",
    "multi_getitem_first",
    "multi_symmetrize_all"
   ],
   "note": "Proved for diagrams of any type."
  },
  {
   "property": "C30",
   "status": "proved",
   "theorems": [
    "slice_info_names",
    "multi_tables_slice_info"
   ],
   "note": "Proved for diagrams of any type that return one slice per wind speed; instantiated with tables."
  },
  {
   "property": "C31",
   "status": "partial",
   "theorems": [
    "multi_csv_round_trip",
    "multi_tables_round_trip",
    "multi_csv_history_partial",
    "multi_csv_overwritten_refuted"
   ],
   "note": "Round trip proved, also after later writes to paths with another part before the first dot; false for paths sharing that part, whose sub-files collide."
  },
  {
   "property": "C32",
   "status": "proved",
   "theorems": [
    "curve_periodic",
    "curve_evaluates",
    "curve_negative",
    "curve_construction"
   ],
   "note": "Proved for all functions and both units."
  },
  {
   "property": "C33",
   "status": "partial",
   "theorems": [
    "curve_symmetric_partial",
    "curve_symmetric_mean_partial",
    "curve_symmetrize_twice",
    "curve_symmetric_ahead_refuted",
    "curve_symmetric_radians_refuted"
   ],
   "note": "Symmetric and idempotent in degrees; false for radians; at wind from ahead the value is not the mean."
  },
  {
   "property": "C34",
   "status": "proved",
   "theorems": [
    "curve_csv_round_trip",
    "symmetrized_csv_refuted"
   ],
   "note": "Proved for library functions; a symmetrised curve is written but cannot be read."
  },
  {
   "property": "C35",
   "status": "proved",
   "theorems": [
    "windspeeds_even",
    "windspeeds_other"
   ],
   "note": "Proved for all wind speed lists and n_steps."
  },
  {
   "property": "C36",
   "status": "proved",
   "theorems": [
    "default_norm_applies",
    "idw_reproduces",
    "idw_weighted_mean",
    "idw_order_independent",
    "idw_rejects"
   ],
   "note": "For every row-wise norm (the default norm is one), every p, every point list. Integer exponents."
  },
  {
   "property": "C37",
   "status": "proved",
   "theorems": [
    "amean_reproduces",
    "amean_weighted_mean",
    "amean_default_in_range",
    "default_distribution",
    "amean_scaled_refuted"
   ],
   "note": "For every distribution; the last theorem records that a factor s other than 1 (the first positional argument) leaves the range."
  },
  {
   "property": "C38",
   "status": "partial",
   "theorems": [
    "improved_idw_partial",
    "improved_idw_equidistant",
    "improved_idw_single_refuted"
   ],
   "note": "Holds when the points are not all equally far from the query; a single or equidistant points give nan (refuted)."
  },
  {
   "property": "C39",
   "status": "partial",
   "theorems": [
    "shepard_reproduces_partial",
    "shepard_direction_refuted",
    "shepard_constant_undefined",
    "shepard_formula_partial",
    "shepard_tolerance_partial"
   ],
   "note": "Reproduction proved. The direction term mixes columns and is not a cosine (witness above 1). Constant data give nan. The returned value is proved to be the weighted mean of the documented form for grid points further than the tolerance from every point, with the direction and slope terms as the code computes them."
  },
  {
   "property": "C40",
   "status": "proved",
   "theorems": [
    "bilinear_is_bilinear",
    "bilinear_exact",
    "bilinear_in_range",
    "bilinear_reproduces",
    "bilinear_defined",
    "bilinear_outside",
    "bilinear_other_width"
   ],
   "note": "All point lists, all queries."
  },
  {
   "property": "C41",
   "status": "proved",
   "theorems": [
    "ball_marks",
    "ball_norm_raises",
    "ball_radius",
    "ellipsoid_marks",
    "ellipsoid_rejects",
    "ellipsoid_default",
    "cuboid_marks",
    "polytope_marks",
    "polytope_shapes"
   ],
   "note": "Mask entry i is true exactly for points in the documented set; parameter validation."
  },
  {
   "property": "C42",
   "status": "partial",
   "theorems": [
    "scaling_ball_marks",
    "scaling_ball_too_few",
    "scaling_ball_min_pts",
    "scaling_ball_empty_refuted"
   ],
   "note": "Holds for all non-empty point lists; an empty list returns True instead of the promised error (refuted part)."
  },
  {
   "property": "C43",
   "status": "partial",
   "theorems": [
    "quantile_keeps_heaviest",
    "quantile_removes_partial",
    "quantile_removes_enough",
    "quantile_removes_refuted",
    "quantile_rejects"
   ],
   "note": "At least one point is kept and only the lightest are removed. That less than percent per cent are removed is false: 10 per cent of three points removes one point. The number removed is bounded by percent (n-1)/100 rounded up instead."
  },
  {
   "property": "C44",
   "status": "partial",
   "theorems": [
    "bound_filter_exact",
    "bound_rejects",
    "filter_statistics_counts",
    "bound_filter_list_refuted"
   ],
   "note": "Proved for weights given as arrays. Weights given as a list, as FluctuationWeigher returns them, raise TypeError."
  },
  {
   "property": "C45",
   "status": "partial",
   "theorems": [
    "mean_weights",
    "mean_weights_default",
    "mean_weights_data",
    "mean_rejects",
    "mean_four_columns_refuted",
    "mean_only_speed_refuted"
   ],
   "note": "Proved for arrays with any row-wise norm of matching dimension, for the default norm and for data objects. False: arrays with more than three columns raise ValueError with the default norm although the documentation allows them, and data with no numeric column besides the speed gets no weights."
  },
  {
   "property": "C46",
   "status": "partial",
   "theorems": [
    "member_weights",
    "member_rejects",
    "member_dimensions_refuted"
   ],
   "note": "Proved for arrays with any row-wise norm. False: with named dimensions and the default norm every non-empty data raises ValueError."
  },
  {
   "property": "C47",
   "status": "partial",
   "theorems": [
    "fluctuation_weights_partial",
    "fluctuation_order_refuted",
    "fluctuation_zero_bound_refuted",
    "fluctuation_unordered_refuted",
    "fluctuation_missing_attributes"
   ],
   "note": "Proved when attributes are listed in the order of the data, times are chronological and bounds positive. False otherwise: bounds are applied in the order of the data columns, unordered times use measurements outside the window, and a zero bound gives nan."
  },
  {
   "property": "C48",
   "status": "partial",
   "theorems": [
    "combined_weigher_raises",
    "combined_weigher_two_partial",
    "weigher_sum_refuted",
    "weigher_numbers_refuted",
    "combined_weigher_two_ops_partial",
    "weigher_with_constants_partial"
   ],
   "note": "The claim is false: every combined weigher raises ValueError unless there are exactly two points, then it returns one number; weigher - a and a / weigher raise TypeError for numbers."
  },
  {
   "property": "C49",
   "status": "partial",
   "theorems": [
    "mean_reuse_array",
    "mean_reuse_data",
    "member_reuse",
    "mean_reuse_refuted",
    "mean_history_refuted",
    "member_history_refuted"
   ],
   "note": "Same input twice gives the same result for arrays, for mean weighers without named dimensions and for member weighers. False: a mean weigher with named dimensions changes the user's list and fails the second time; other data in between changes later results."
  },
  {
   "property": "C50",
   "status": "partial",
   "theorems": [
    "fuzzy_truth_partial",
    "fuzzy_values",
    "fuzzy_de_morgan",
    "fuzzy_comparisons",
    "fuzzy_weights_partial"
   ],
   "note": "Full for range, De Morgan, complement; the exact truth function is proved for all expressions except x(s) == a with its own sharpness (see C51)."
  },
  {
   "property": "C51",
   "status": "partial",
   "theorems": [
    "sharpness_used_partial",
    "sharpness_eq_refuted",
    "sharpness_pending_refuted"
   ],
   "note": "Proved for <, <=, >, >=. False for ==: only one half uses s. An x(s) that is not compared stays pending."
  },
  {
   "property": "C52",
   "status": "partial",
   "theorems": [
    "remove_only_rows",
    "remove_only_statistic_refuted"
   ],
   "note": "The result is proved to be exactly the complete rows in order; the statistic n_removed_rows is the number of kept rows (refuted)."
  },
  {
   "property": "C53",
   "status": "partial",
   "theorems": [
    "fill_local_result",
    "fill_local_keeps",
    "fill_local_raises",
    "fill_local_jump_refuted",
    "fill_local_overwrites_refuted",
    "default_imputation"
   ],
   "note": "Full characterisation for all tables and fill functions; the claim about time stamps between close stamps fails after a jump, and unordered stamps are overwritten (refuted)."
  },
  {
   "property": "C54",
   "status": "partial",
   "theorems": [
    "smooth_table",
    "smooth_far_partial",
    "smooth_constant",
    "smooth_rejects",
    "smooth_lazy",
    "smooth_unordered_refuted",
    "smooth_end_refuted",
    "smooth_single_refuted",
    "smooth_keeps_rows"
   ],
   "note": "Range, row count and other columns are proved for chronological data; unordered data is only rejected when a stamp precedes the first one, and a single row raises IndexError (refuted)."
  },
  {
   "property": "C55",
   "status": "partial",
   "theorems": [
    "uniform_sample_ok",
    "spiral_sample_ok",
    "sampler_number",
    "rescale_terminates",
    "rescale_diverges_refuted",
    "spiral_number_of_points"
   ],
   "note": "Full for every run that returns; that the rescaling always returns is refuted by a symmetric base set."
  },
  {
   "property": "C56",
   "status": "proved",
   "theorems": [
    "make_circle_encloses",
    "small_circle_contains"
   ],
   "note": "For every run that returns; the random shuffle is an arbitrary permutation. small_circle_contains also shows that no RuntimeError occurs for up to three points."
  },
  {
   "property": "C57",
   "status": "proved",
   "theorems": [
    "zeros_injected",
    "zeros_refused"
   ],
   "note": ""
  },
  {
   "property": "C58",
   "status": "partial",
   "theorems": [
    "nmea_coordinate",
    "nmea_hemisphere_refuted",
    "nmea_position"
   ],
   "note": "The conversion of degrees and minutes is proved; refuted: the hemisphere letter is ignored, so southern and western positions get the wrong sign. The decoded position replaces the sentence fields, other fields are kept."
  },
  {
   "property": "C59",
   "status": "partial",
   "theorems": [
    "nmea_time_partial",
    "nmea_time_refuted",
    "nmea_timestamp"
   ],
   "note": "Proved for time stamps with six fraction digits. Refuted: the fraction digits are read as microseconds whatever their number, a stamp without fraction raises IndexError and one with more than six digits ValueError."
  },
  {
   "property": "C60",
   "status": "partial",
   "theorems": [
    "array_columns_kept",
    "array_wrong_keys",
    "array_duplicate_refuted"
   ],
   "note": "Proved for distinct keys; refuted for a key given twice, where the earlier column is lost."
  },
  {
   "property": "C61",
   "status": "partial",
   "theorems": [
    "regressor_start_partial",
    "regressor_start_builtin",
    "regressor_start_refuted",
    "odr_refuses",
    "fit_evaluates"
   ],
   "note": "Proved for functions taking *params; refuted for every function with named parameters: two initial values too many are used and fit raises TypeError."
  },
  {
   "property": "C62",
   "status": "proved",
   "theorems": [
    "pipeline_run",
    "pipeline_complete",
    "pipeline_no_fields"
   ],
   "note": "For arbitrary stateful components that may raise."
  },
  {
   "property": "C63",
   "status": "proved",
   "theorems": [
    "test_data_irrelevant"
   ],
   "note": "For arbitrary stateful components."
  },
  {
   "property": "C64",
   "status": "partial",
   "theorems": [
    "pipeline_run",
    "pre_expanding_statistics_refuted"
   ],
   "note": "All fields but one are proved; refuted: pre_expanding_filter of the training statistics holds the statistics of pre_influence_filter."
  },
  {
   "property": "C65",
   "status": "partial",
   "theorems": [
    "handlers_matched_partial",
    "handlers_list_refuted"
   ],
   "note": "Proved for an iterator of handlers; refuted for a list (the documented type): every run raises TypeError."
  },
  {
   "property": "C66",
   "status": "partial",
   "theorems": [
    "table_extension_entries",
    "table_min_max",
    "auto_resolution_partial",
    "auto_resolution_refuted",
    "auto_resolution_counts"
   ],
   "note": "Entries proved for every grid of distinct winds, everything for the default resolution min_max; refuted for auto, whose resolution contains winds twice, in particular always after the default injector. The winds that auto adds are characterised exactly."
  },
  {
   "property": "C67",
   "status": "partial",
   "theorems": [
    "weather_rows_partial",
    "weather_expander_refuted"
   ],
   "note": "The weather is appended as rows of its own below the data instead of being joined to the rows; with no answer at all the mode ignore raises TypeError."
  },
  {
   "property": "C68",
   "status": "proved",
   "theorems": [
    "minimal_figures_correct",
    "minimal_check_total",
    "conforming_figures_correct"
   ],
   "note": "Exact arithmetic."
  },
  {
   "property": "C69",
   "status": "partial",
   "theorems": [
    "gridded_weather_partial",
    "gridded_grid_point",
    "gridded_weather_refuted",
    "interpolation_between",
    "outside_raises"
   ],
   "note": "Affine interpolation proved for coordinates that are no grid value or the first one. False for other grid values: the index within the cuboid is taken for the grid index, so grid points get the weather of the first grid point."
  },
  {
   "property": "C70",
   "status": "partial",
   "theorems": [
    "multi_weather_partial",
    "multi_weather_sensitive",
    "multi_weather_refuted"
   ],
   "note": "Last supplier wins and failing models are skipped for ValueError, TypeError and KeyError; the documented NotImplementedError is not caught."
  },
  {
   "property": "C71",
   "status": "partial",
   "theorems": [
    "file_roundtrip_partial",
    "file_date_text",
    "file_early_years",
    "file_roundtrip_refuted",
    "file_dates_valid"
   ],
   "note": "Round trip for dates from year 1000 on without fractions of a second; fractions are lost, numeric times and earlier years cannot be read. JSON text itself and locales other than C are trusted or left out."
  },
  {
   "property": "C72",
   "status": "partial",
   "theorems": [
    "spherical_round_trip",
    "spherical_round_trip_place",
    "spherical_round_trip_points",
    "spherical_project_norm",
    "spherical_distance",
    "spherical_distance_metric",
    "spherical_distance_zero",
    "same_place_proper",
    "spherical_path",
    "spherical_projected_path_norm",
    "spherical_path_refuted"
   ],
   "note": "Full, except that the path from a position to itself or to its antipode raises LinAlgError (refuted there)."
  },
  {
   "property": "C73",
   "status": "partial",
   "theorems": [
    "mercator_round_trip",
    "mercator_default",
    "mercator_constructor",
    "mercator_round_trip_points",
    "mercator_distance",
    "mercator_distance_metric",
    "mercator_distance_zero",
    "mercator_path",
    "mercator_round_trip_refuted"
   ],
   "note": "Full for perpendicular virtual pole and zero (in particular the defaults); refuted for others, which the constructor accepts."
  },
  {
   "property": "C74",
   "status": "partial",
   "theorems": [
    "identity_remove_true_wind",
    "identity_remove_apparent_wind",
    "remove_refuses",
    "identity_add_evaluates",
    "wac_add_lists_partial",
    "wac_remove_lists_partial",
    "wac_single_record_refuted"
   ],
   "note": "Identity model proved; the wind angle correction holds for lists only: a single record ignores the shift when adding and raises IndexError when removing."
  },
  {
   "property": "C75",
   "status": "partial",
   "theorems": [
    "convex_direction_partial",
    "convex_direction_single_refuted",
    "convex_direction_proportion_refuted",
    "convex_direction_opposite_refuted"
   ],
   "note": "For slices in which the boat can make way in every direction the call succeeds, and two directions are a convex combination towards the goal. Refuted for one direction (90 requested, 90 recorded and optimal, 0 returned), and for other slices: proportions outside [0,1], way in the opposite direction."
  },
  {
   "property": "C76",
   "status": "partial",
   "theorems": [
    "cruise_legs_partial",
    "cruise_reaches_refuted"
   ],
   "note": "Total length of the legs is the distance; with two legs they lead in the wanted direction but not beyond the distance. Refuted: zigzag legs have the length of the straight way."
  },
  {
   "property": "C77",
   "status": "partial",
   "theorems": [
    "isochrone_time",
    "isochrone_terminates_partial",
    "isochrone_constant",
    "isochrone_no_speed_refuted",
    "isochrone_zero_time_refuted",
    "isochrone_no_nodes"
   ],
   "note": "Every returned way takes exactly the total time with at least min_nodes steps; termination for speeds bounded from above and below; refuted for no speed and for total_time 0."
  },
  {
   "property": "C78",
   "status": "partial",
   "theorems": [
    "inverse_speed",
    "slower_boat_partial",
    "no_speed_refuted",
    "no_weather"
   ],
   "note": "True for positive speeds; speed 0 gives time 0."
  },
  {
   "property": "C79",
   "status": "partial",
   "theorems": [
    "mercator_inverse",
    "mercator_inverse_back",
    "mercator_inverse_refuted",
    "uv_components",
    "uv_components_back",
    "tw_components",
    "wind_direction_range_partial",
    "wind_direction_range_refuted"
   ],
   "note": "Mutually inverse for second coordinates in (-90,90); refuted beyond. Wind components proved; the documented range of the direction is refuted."
  },
  {
   "property": "C80",
   "status": "partial",
   "theorems": [
    "split_by_info",
    "split_complete",
    "plot_groups_partial",
    "plot_groups_refuted",
    "whole_plot_sails_partial"
   ],
   "note": "The splitting is proved for all slices and info lists, plotting for slices in ascending order of angles. False for the slices of a diagram with several sails: the points are sorted by angle, the names are not."
  },
  {
   "property": "C81",
   "status": "partial",
   "theorems": [
    "gradient_partial",
    "gradient_monotone",
    "gradient_colors",
    "gradient_equal_refuted"
   ],
   "note": "Proved for at least two different values; equal values give 0/0."
  },
  {
   "property": "C82",
   "status": "partial",
   "theorems": [
    "model_functions_documented",
    "default_model_zero",
    "default_model_mirrored",
    "model_functions_too_few",
    "ws_s_wa_gauss_refuted"
   ],
   "note": "Proved for all predefined functions but ws_s_wa_gauss, which fails with its documented parameters."
  },
  {
   "property": "C83",
   "status": "partial",
   "theorems": [
    "fmod_exact",
    "mod_closed_partial",
    "mod_error",
    "mod_360_iff",
    "mod_half_open_refuted",
    "exact_mod_unique"
   ],
   "note": "Closed interval [0,360] proved, with the exact set of numbers that are reduced to 360; half open refuted. Rounding by the operator of Flocq."
  },
  {
   "property": "C84",
   "status": "partial",
   "theorems": [
    "table_returns_entries",
    "table_call_periodic_refuted"
   ],
   "note": "True at listed winds, false between them (finding)."
  },
  {
   "property": "C85",
   "status": "proved",
   "theorems": [
    "get_points_evaluates",
    "get_wind_meaning"
   ],
   "note": "Proved for all diagrams."
  },
  {
   "property": "C86",
   "status": "proved",
   "theorems": [
    "cloud_slices_exact"
   ],
   "note": "Proved for slices without interpolator."
  },
  {
   "property": "C87",
   "status": "partial",
   "theorems": [
    "curve_slices_values_partial",
    "curve_slices_radians_refuted"
   ],
   "note": "Proved for degrees; with radians=True the degrees 0 to 360 are passed as radians."
  },
  {
   "property": "C88",
   "status": "partial",
   "theorems": [
    "deciles_cover",
    "deciles_sum_refuted"
   ],
   "note": "Range and coverage proved; the sum is false: weights on a boundary count twice, equal weights ten times."
  },
  {
   "property": "C89",
   "status": "partial",
   "theorems": [
    "csv_columns_kept",
    "csv_long_row",
    "csv_duplicate_refuted",
    "csv_word_refuted"
   ],
   "note": "Branch without pandas. Refuted: columns with equal names are mixed; a bare word raises ValueError instead of the documented RuntimeError."
  },
  {
   "property": "C90",
   "status": "partial",
   "theorems": [
    "nmea_wind_reference",
    "nmea_filters",
    "nmea_wanted_attribute_refuted",
    "nmea_reads"
   ],
   "note": "Refuted for wanted_attributes=[\"AWS\"], which stores apparent wind speeds as TWS."
  },
  {
   "property": "C91",
   "status": "proved",
   "theorems": [
    "switches_resolved",
    "components_resolved"
   ],
   "note": ""
  },
  {
   "property": "C92",
   "status": "proved",
   "theorems": [
    "cloud_extension_points",
    "curve_extension"
   ],
   "note": ""
  },
  {
   "property": "C93",
   "status": "partial",
   "theorems": [
    "conforming_check_total_partial",
    "conforming_check_refuted"
   ],
   "note": "Total for diagrams defined at wind speed 0; refuted for every point cloud (ValueError at wind speed 0), and the reported local difference is the mean over the winds instead of the documented maximum."
  },
  {
   "property": "C94",
   "status": "partial",
   "theorems": [
    "wac_add_undoes_remove",
    "wac_recorded_speeds_refuted"
   ],
   "note": "Add after remove refers to the recorded angle; the second half is false: both methods would need opposite signs, the recorded speeds are not reproduced."
  },
  {
   "property": "C95",
   "status": "partial",
   "theorems": [
    "fit_smallest_density_partial",
    "fit_circle_refuted"
   ],
   "note": "True for distances on the line from 0 to 360; on the circle false: the kernel uses abs(wa - other) % 360, so 359 and 0 are far apart."
  },
  {
   "property": "C96",
   "status": "partial",
   "theorems": [
    "netcdf_indices",
    "netcdf_data",
    "netcdf_times_partial",
    "netcdf_times_refuted",
    "netcdf_names",
    "netcdf_weather_partial"
   ],
   "note": "Indices and data proved; the time axis only for whole hours or seconds: int(plain_time) drops fractions. The interpolated weather is proved for points whose coordinates are no grid values or the first ones."
  },
  {
   "property": "C97",
   "status": "partial",
   "theorems": [
    "mercator_origin_default",
    "mercator_origin_refuted"
   ],
   "note": "True for the defaults; refuted in general: the matrix is used where its inverse is needed."
  },
  {
   "property": "C98",
   "status": "partial",
   "theorems": [
    "globes_agree_on_equator_partial",
    "globes_agree_on_equator_refuted"
   ],
   "note": "True while the longitudes differ by at most 180 degrees; refuted across the 180th meridian."
  },
  {
   "property": "C99",
   "status": "proved",
   "theorems": [
    "convex_direction_optimal"
   ],
   "note": "Optimal among all convex combinations of recorded velocities, given the contract of the hull algorithm; the single-direction answer is covered by C75."
  },
  {
   "property": "C100",
   "status": "partial",
   "theorems": [
    "cruise_wind_period_refuted"
   ],
   "note": "Refuted: the angle in degrees is used in cos and sin."
  },
  {
   "property": "C101",
   "status": "proved",
   "theorems": [
    "cost_constant_density",
    "cost_monotone",
    "cost_additive",
    "cost_constant_speed",
    "cost_on_line"
   ],
   "note": "For every solver of the differential equation that keeps its contract."
  },
  {
   "property": "C102",
   "status": "partial",
   "theorems": [
    "uvgrid_to_tw_value",
    "uvgrid_to_tw_partial",
    "uvgrid_head_wind_refuted",
    "uvgrid_head_wind_iff"
   ],
   "note": "Exact value for every wind; head wind gives angle 0 only on the courses 45 and 225."
  },
  {
   "property": "C103",
   "status": "partial",
   "theorems": [
    "course_equator_partial",
    "course_north_refuted",
    "course_west_refuted",
    "course_west_equator_refuted"
   ],
   "note": "True from the equator eastwards; refuted otherwise."
  },
  {
   "property": "C104",
   "status": "partial",
   "theorems": [
    "distance_symmetric",
    "distance_self_refuted",
    "distance_equator_partial",
    "distance_meridian_partial",
    "distance_equator_refuted",
    "distance_meridian_refuted",
    "distance_period_refuted"
   ],
   "note": "Symmetric; nan for equal points; right on the equator up to pi degrees, wrong beyond. Along a meridian the exact value is given; it is wrong by up to 28 percent because only one of the angles is converted to radians."
  },
  {
   "property": "C105",
   "status": "partial",
   "theorems": [
    "wind_formats_opposite",
    "wind_formats_refuted"
   ],
   "note": "Refuted: the directions are always opposite."
  },
  {
   "property": "C106",
   "status": "partial",
   "theorems": [
    "cruise_influence_data",
    "cruise_influence_data_refuted",
    "cruise_influence_data_unused"
   ],
   "note": "Exact state after the call; refuted with an influence model, true without."
  },
  {
   "property": "C107",
   "status": "partial",
   "theorems": [
    "weather_keys_refuted"
   ],
   "note": "Refuted: KeyError without UGRID."
  },
  {
   "property": "C108",
   "status": "partial",
   "theorems": [
    "convex_direction_error_partial",
    "convex_direction_opposite_refuted"
   ],
   "note": "Whenever the ValueError is raised, the direction is indeed impossible. The converse is false: convex_direction_opposite_refuted gives a slice for which the function answers although no way can be made."
  },
  {
   "property": "C109",
   "status": "partial",
   "theorems": [
    "cruise_ignores_influence_refuted",
    "cruise_ignores_influence_example_refuted"
   ],
   "note": "Refuted: the directions never depend on the influence."
  },
  {
   "property": "C110",
   "status": "partial",
   "theorems": [
    "isochrone_north_refuted",
    "isochrone_east_refuted",
    "isochrone_north_example_refuted"
   ],
   "note": "Refuted for all inputs: the roles of the coordinates are exchanged."
  },
  {
   "property": "C111",
   "status": "partial",
   "theorems": [
    "cost_heading_refuted"
   ],
   "note": "Refuted: radians."
  },
  {
   "property": "C112",
   "status": "proved",
   "theorems": [
    "hull_plot",
    "hull_plot_closed",
    "hull_plot_drawn"
   ],
   "note": "The hull algorithm is an arbitrary function. A division by zero (nan) in the estimate at 0 degrees is the only other outcome."
  },
  {
   "property": "C113",
   "status": "partial",
   "theorems": [
    "wrap_estimate_exact",
    "wrap_estimate_partial",
    "wrap_estimate_refuted"
   ],
   "note": "True exactly for end points that are symmetric in their offset from the axis or level; the weights of the two points are exchanged."
  },
  {
   "property": "C114",
   "status": "partial",
   "theorems": [
    "paired_colors",
    "paired_colors_missing",
    "listed_colors",
    "gradient_colors",
    "two_colors_refuted"
   ],
   "note": "Proved for pairs, lists and gradients of more than two slices; false for two colours and two slices, which are coloured in the order they are given."
  },
  {
   "property": "C115",
   "status": "partial",
   "theorems": [
    "single_color_partial",
    "single_color_channels_partial",
    "single_color_refuted"
   ],
   "note": "True for names and tuples whose first channel is an integer; false for tuples of floating point channels."
  },
  {
   "property": "C116",
   "status": "partial",
   "theorems": [
    "surface_partial",
    "surface_point",
    "surface_refuted",
    "surface_exact"
   ],
   "note": "Drawn triangles are steep and do not cross the upper half axis; the converse holds for triangles to the right of the axis that are steep at the first corner. False in general and depending on the order of the corners: the third condition is passed to numpy as the output array."
  },
  {
   "property": "C117",
   "status": "partial",
   "theorems": [
    "table_text_partial",
    "printed_number",
    "small_fits",
    "table_text_long_refuted",
    "table_text_refuted"
   ],
   "note": "Proved up to 15 wind speeds. False for more: the last five listed wind speeds head the columns of the sixth to tenth wind speed (for all such tables, with a witness)."
  },
  {
   "property": "C118",
   "status": "proved",
   "theorems": [
    "cloud_text",
    "multi_text"
   ],
   "note": "Numbers of more than three digits before the point would shift the columns."
  },
  {
   "property": "C119",
   "status": "partial",
   "theorems": [
    "fuzzy_text_faithful_partial",
    "fuzzy_text_reads_back_partial",
    "fuzzy_item_text_refuted",
    "fuzzy_text_sharpness_refuted"
   ],
   "note": "Equal texts mean equal truth functions for expressions without x(s) and with plain keys; texts without items of compound statements read back. False otherwise: the sharpness x(s) is not printed, and (a & b)[k] prints as (a) & (b)[k], which Python reads as a & (b[k])."
  },
  {
   "property": "C120",
   "status": "partial",
   "theorems": [
    "legend_listed",
    "legend_listed_complete_partial",
    "legend_pairs_partial",
    "legend_gradient",
    "legend_listed_refuted",
    "legend_single_refuted"
   ],
   "note": "Holds for gradients and when there is a colour for every slice; entries are always right for sequences and pairs of different wind speeds. False otherwise: slices drawn in the default blue are missing, a single colour is taken letter by letter (\"red\" is an error, \"r\" lists the first slice only)."
  },
  {
   "property": "C121",
   "status": "partial",
   "theorems": [
    "meteostat_partial",
    "meteostat_gap_refuted",
    "meteostat_hours_refuted",
    "meteostat_last_refuted"
   ],
   "note": "Proved if all places with data have the same hours and the last place has data; places without data get zeros. False otherwise: the hours of the last place are taken for all (none if it has no data), different numbers of hours are a ValueError."
  },
  {
   "property": "C122",
   "status": "proved",
   "theorems": [
    "cloud_axes_exact"
   ],
   "note": "For all clouds over the reals."
  },
  {
   "property": "C123",
   "status": "partial",
   "theorems": [
    "gradient_scatter_partial",
    "gradient_scatter_legend_partial",
    "gradient_scatter_single_refuted",
    "gradient_scatter_many_refuted",
    "gradient_scatter_equal_refuted",
    "gradient_legend_refuted"
   ],
   "note": "Proved for two colours and boat speeds that are not all equal, the legend for more than two points. False for a single colour, for more than two colours (the others are ignored), for equal boat speeds and for the legend of two points."
  },
  {
   "property": "C124",
   "status": "partial",
   "theorems": [
    "table_default_points",
    "curve_default_points_grid",
    "cloud_default_points_partial",
    "cloud_default_points_refuted",
    "multi_default_points_partial",
    "multi_default_points_refuted"
   ],
   "note": "Proved for tables and curves. For clouds it holds when the winds are positive and different, false for repeated winds and for wind speed 0. With several sails the diagram is at least as fast as each default point, not always equal."
  },
  {
   "property": "C125",
   "status": "partial",
   "theorems": [
    "default_slices_values",
    "multi_default_slices_values",
    "cloud_default_slices_cover_partial",
    "cloud_default_slices_cover_refuted"
   ],
   "note": "The wind speeds are proved. The slices cover the cloud if its wind speeds spread over at most 38; a witness shows a point in no slice otherwise."
  },
  {
   "property": "C126",
   "status": "partial",
   "theorems": [
    "cloud_interp_slices_partial",
    "cloud_interp_slices_refuted"
   ],
   "note": "The boat speeds are those of the evenly spaced angles, but the slice is one column of boat speeds and never has three rows."
  },
  {
   "property": "C127",
   "status": "proved",
   "theorems": [
    "interpolator_parameters"
   ],
   "note": ""
  },
  {
   "property": "C128",
   "status": "proved",
   "theorems": [
    "float_gradient_coefficients",
    "float_gradient_colors"
   ],
   "note": "Rounding by the operator of Flocq. Overflow of the difference of the extremes is left out."
  },
  {
   "property": "C129",
   "status": "proved",
   "theorems": [
    "float_normalize",
    "float_mean_weights"
   ],
   "note": "Rounding by the operator of Flocq."
  },
  {
   "property": "C130",
   "status": "partial",
   "theorems": [
    "float_sigmoid",
    "float_fuzzy_laws",
    "float_double_negation_partial",
    "float_double_negation_refuted"
   ],
   "note": "Range and De Morgan proved. Negating twice may change the truth value by 2^-53; a truth value of 2^-60 becomes 0."
  },
  {
   "property": "C131",
   "status": "partial",
   "theorems": [
    "float_steps_partial",
    "float_steps_refuted"
   ],
   "note": "Proved for whole steps. False for others: the step 5/11 yields the wind angle 360, the step 0.16 the wind speed 40, and with the step 0.3 the multiple 1200 * 0.3 below 360 is missing. The computation of numpy.arange is part of the model."
  },
  {
   "property": "C132",
   "status": "proved",
   "theorems": [
    "functions_of_one_variable",
    "functions_too_few",
    "gompertz_grows",
    "gompertz_powers"
   ],
   "note": "Real arithmetic; exponentials and powers are those of the reals."
  },
  {
   "property": "C133",
   "status": "proved",
   "theorems": [
    "csv_text_round_trip",
    "diagram_text_round_trip",
    "table_extern_text_round_trip",
    "multi_text_round_trip",
    "file_layout",
    "array_fields_written",
    "table_array_text_round_trip",
    "csv_text_line_ends",
    "csv_text_limit",
    "array_text_lines"
   ],
   "note": "Texts are sequences of bytes; writer and reader of Python's csv module are modelled character by character. The layout theorem is for numbers and names without delimiters. The docstring of PolarDiagramTable.to_csv gives the labels with colons (TWS:, TWA:, Boat speeds:), the files have TWS, TWA, BSP. The theorem about typed files is for fields without delimiters, quotes and line ends."
  },
  {
   "property": "C134",
   "status": "proved",
   "theorems": [
    "whole_plot",
    "whole_plot_hull",
    "whole_plot_refused"
   ],
   "note": "Two colours for at most two slices are taken in turn (C114). For several sails see whole_plot_sails_partial in C80. The convex hull of scipy is a parameter, which may fail."
  },
  {
   "property": "C135",
   "status": "proved",
   "theorems": [
    "delete_columns"
   ],
   "note": ""
  },
  {
   "property": "C136",
   "status": "proved",
   "theorems": [
    "spiral_points"
   ],
   "note": ""
  },
  {
   "property": "C137",
   "status": "proved",
   "theorems": [
    "default_pipeline_table"
   ],
   "note": "Runs that return; weighers, filters, handlers and quality checks are arbitrary functions with state. Rows with None or nan in a used column make the model of numpy raise."
  },
  {
   "property": "C138",
   "status": "partial",
   "theorems": [
    "rows_in_order",
    "rows_tuple_partial",
    "rows_tuple_loop",
    "rows_tuple_refuted",
    "rows_iterator_refuted",
    "rows_other_type"
   ],
   "note": "dict and list proved; tuples are right when read at once (as the weather expander does) and wrong when collected; iterators as keys are wrong."
  },
  {
   "property": "C139",
   "status": "partial",
   "theorems": [
    "space_scatter_points",
    "space_scatter_refuted",
    "space_scatter_single_refuted"
   ],
   "note": "Place and colour are proved for every number of colours from two on. space_scatter_refuted: the documented agreement with HROColorGradient.scatter is false, points with the same wind speed get the same colour in 3D. space_scatter_single_refuted: one colour raises ValueError."
  },
  {
   "property": "C140",
   "status": "proved",
   "theorems": [
    "standard_pipeline_table",
    "different_columns_refuted"
   ],
   "note": "Over the reals. Statistics of the weighers and filters are left out of the model, handler and quality assurance are arbitrary. different_columns_refuted shows that the condition of equal columns is needed: the weigher keeps the norm made for the first field."
  },
  {
   "property": "C141",
   "status": "proved",
   "theorems": [
    "table_items_refused",
    "delete_missing",
    "csv_row_too_long",
    "csv_empty_refused",
    "array_refused",
    "nmea_time_refused",
    "one_weight_refused",
    "curve_file_refused",
    "sails_refused",
    "mixed_wind_refused",
    "weather_file_refused",
    "weigher_refused",
    "smooth_refused"
   ],
   "note": ""
  },
  {
   "property": "C142",
   "status": "proved",
   "theorems": [
    "foreign_table"
   ],
   "note": "Numbers are read by a parameter standing for literal_eval."
  },
  {
   "property": "C143",
   "status": "partial",
   "theorems": [
    "repr_rebuilds_partial",
    "repr_default_weigher_refuted",
    "repr_dimensions_refuted",
    "repr_keywords_refuted",
    "repr_ellipsoid_refuted",
    "repr_curve_refuted"
   ],
   "note": "Proved for the listed components; refuted for default mean weighers and unnamed norms, weighers with dimensions, cuboids, Shepard interpolators, ellipsoids and curves. Printing and reading of numbers are parameters."
  },
  {
   "property": "C144",
   "status": "partial",
   "theorems": [
    "float_mean_range",
    "float_idw_range",
    "float_mean_single",
    "float_idw_overshoot_refuted",
    "float_average_range",
    "float_average_tiny_refuted"
   ],
   "note": "Proved up to a relative error of 2 n 2^-53 for n points (exact for one point). Without that error false: two points of boat speed 1 at the distances 1 and 21 give 1 + 2^-52 in every order; np.average with weights near 2^-1074 may return 0. Overflow is not modelled."
  },
  {
   "property": "C145",
   "status": "partial",
   "theorems": [
    "value_semantics",
    "caller_lists_kept",
    "extend_keeps_the_list_refuted",
    "extend_copies_refuted",
    "columns_independent_refuted",
    "slice_reads",
    "slice_copies_refuted",
    "self_update_doubles"
   ],
   "note": "Proved for all programs of append, update, concatenate, from_dictionary, row selection, fill, delete, rename, strip and extend of existing columns. False for extend with a new key, which stores the list of the caller, and for slices of columns, which hold the lists of the object; the refutations say in general what happens then. Updating an object with itself is covered when its columns have equal lengths, as they have after every update."
  },
  {
   "property": "C146",
   "status": "proved",
   "theorems": [
    "log_rows_keep_values",
    "nmea_rows",
    "nmea_table",
    "nmea_mixed_refused",
    "nmea_kept_types"
   ],
   "note": "nmea_rows gives every column of the table before the keys are standardised; nmea_table the result of the whole handler when no attribute is a date (dates are combined with times, C14)."
  },
  {
   "property": "C147",
   "status": "partial",
   "theorems": [
    "float_smooth_range",
    "float_smooth_constant_refuted"
   ],
   "note": "The range is left by at most four units in the last place, the first value is exact. A constant column does not stay constant: 6.1 recorded at 0, 1 and 20 seconds becomes 6.1 + 2^-50. Overflow is not modelled."
  },
  {
   "property": "C148",
   "status": "partial",
   "theorems": [
    "float_weather_partial",
    "float_weather_grid_point",
    "float_weather_range_refuted"
   ],
   "note": "The error is at most 40 units in the last place of the largest value for points without grid values other than the first (see C69); at grid points nothing is rounded. The range is left: wind that is 6.1 everywhere is 6.1 + 2^-50 in between. Overflow is not modelled."
  },
  {
   "property": "C149",
   "status": "partial",
   "theorems": [
    "float_quantile_keeps",
    "float_quantile_removes_partial",
    "float_quantile_removes_refuted"
   ],
   "note": "np.percentile is modelled with linear interpolation in the two-sided form of numpy; overflow and nan are left out. The documented 'less than the given percentage' is refuted with a witness."
  },
  {
   "property": "C150",
   "status": "partial",
   "theorems": [
    "float_mirror_twice",
    "float_mirror_exact_angles",
    "float_symmetrize_mirrors",
    "float_symmetrize_settles",
    "float_symmetrize_twice_refuted",
    "float_curve_symmetric_partial",
    "float_curve_symmetric_refuted",
    "float_cloud_points",
    "float_curve_reduces"
   ],
   "note": "Mirroring twice gives the angle back exactly if 360 - wa is a binary64 number, in particular from 180 degrees on and for multiples of 2^-44 degrees; the curve is exactly symmetric there. Refuted for 0.1 degrees. From the second symmetrisation on no new points appear."
  },
  {
   "property": "C151",
   "status": "partial",
   "theorems": [
    "data_text_tells",
    "data_text_long_refuted",
    "data_text_commas_refuted",
    "data_text_untyped"
   ],
   "note": "Texts are equal exactly if keys, classes and all columns of less than ten entries are equal and longer columns agree in the first and last five entries, for entries whose texts are distinct and have no commas or line breaks. False for longer columns and for texts with commas in long columns."
  },
  {
   "property": "C152",
   "status": "partial",
   "theorems": [
    "diagrams_do_not_share",
    "arguments_only_reduced",
    "calls_change_one_diagram",
    "arguments_kept_partial",
    "new_table_writes",
    "item_writes",
    "points_write",
    "arguments_kept_refuted",
    "shared_roles_refuted",
    "same_array_twice"
   ],
   "note": "Diagrams and answers are those of the program with copies, provided that no array is used both as wind speeds and as wind angles (false otherwise). The arrays themselves are changed: arrays of angles are brought into the range from 0 to 360, even if the call fails; nothing else ever happens to them, and exactly when it happens is proved."
  },
  {
   "property": "C153",
   "status": "partial",
   "theorems": [
    "float_turns",
    "float_turns_grid",
    "float_entered_found",
    "float_item_turns_partial",
    "float_item_turns_refuted",
    "float_listed_found",
    "float_listed_found_refuted"
   ],
   "note": "Entries are found under the angle under which they were entered and under every number with the same remainder; under shifted angles exactly if the shift needs no rounding (an entry at 0.1 is not found at 360.1). A tiny negative angle is listed as 360 and not found there."
  },
  {
   "property": "C154",
   "status": "partial",
   "theorems": [
    "float_linspace_ordered",
    "float_linspace_near",
    "float_linspace_distinct_partial",
    "float_linspace_distinct_refuted",
    "float_windspeeds"
   ],
   "note": "Order, ends, containment and the distance to an even division (20 units of rounding of the larger end) are proved; entries are different if their distance exceeds 40 units of rounding, and not between neighbouring doubles (refuted)."
  },
  {
   "property": "C155",
   "status": "proved",
   "theorems": [
    "smooth_exact",
    "rows_in_runs",
    "blend_meets"
   ],
   "note": "Exact arithmetic. smooth_exact gives the value of every row of a run and of the last row; rows_in_runs shows that these are all rows."
  },
  {
   "property": "C156",
   "status": "partial",
   "theorems": [
    "statistics_as_values",
    "statistics_stay",
    "statistics_of_run",
    "statistics_stale",
    "statistics_stale_refuted",
    "statistics_new",
    "statistics_shared_refuted"
   ],
   "note": "Never changed and equal to the copying program: proved. Independent of the past: proved if every component sets statistics in all calls or in none, or, for influence models, in fit only; false for all influence models that set them in remove_influence but not in fit, whose former statistics override the new ones. Entries of the caller: separate if every call sets statistics and there are test data, otherwise false (smoothers, test statistics without test data, influence models)."
  },
  {
   "property": "C157",
   "status": "partial",
   "theorems": [
    "direction_text_tells",
    "direction_text_share",
    "direction_text_refuted"
   ],
   "note": "Exact: the texts are equal if and only if the angles, the rounded products proportion * 100 and the sails are equal, where an empty name counts as no sail. Hence shares with equal texts differ by at most 2^-52; false for neighbouring shares such as 3/4 + 6/2^53 and 3/4 + 7/2^53 and for empty names."
  },
  {
   "property": "C158",
   "status": "proved",
   "theorems": [
    "smooth_same_time",
    "smooth_ties",
    "rows_first"
   ],
   "note": "Exact arithmetic. smooth_ties gives the value of every row whose time stamp first occurs in a run; rows_first shows that these are all rows."
  },
  {
   "property": "C159",
   "status": "partial",
   "theorems": [
    "float_table_mirrors",
    "float_table_symmetric",
    "float_table_symmetric_partial",
    "float_table_symmetric_refuted",
    "float_table_merged",
    "float_table_merged_refuted"
   ],
   "note": "The entries are proved for all tables, reading the original entries at both angles if the computed mirror images differ from each other and from the other angles, reading all entries if moreover 360 - wa needs no rounding. False otherwise: an entry at 0.1 degrees appears at 359.9 degrees but not at 360 - 359.9; angles with the same rounded mirror image (0 and 2^-46) cannot be read there any more."
  },
  {
   "property": "C160",
   "status": "partial",
   "theorems": [
    "float_weigh_range",
    "float_weigh_steady_partial",
    "float_weigh_steady_refuted"
   ],
   "note": "The range holds without restriction. The weight 1 is proved if the boat speed can be added up without rounding, in particular in cylinders with at most two points; it is false in general: three measurements of 6.1 knots at the same wind all get the weight 0, because the rounding error of the mean is divided by a standard deviation that is the same rounding error. Overflow, nan and the sign of zero are not modelled."
  },
  {
   "property": "C161",
   "status": "partial",
   "theorems": [
    "float_fluct_range",
    "float_fluct_zero",
    "float_fluct_monotone",
    "float_fluct_steady_partial",
    "float_fluct_steady_refuted"
   ],
   "note": "The first three claims hold as stated. The weight 1 for unchanged attributes is proved if the values can be added up without rounding, in particular in windows with at most two rows; it is false in general: three values 6.1 with the upper bound 1 give the weight 1 - 2^-50. The windows themselves are found by exact comparison of time stamps and are given here. Overflow, nan and the sign of zero are not modelled."
  },
  {
   "property": "C162",
   "status": "proved",
   "theorems": [
    "convex_first_slice",
    "convex_influence_replaces",
    "convex_influence_circle",
    "convex_influence_refused"
   ],
   "note": "The hull is any function of the points (scipy is not modelled); the influence model is represented by the outcome of add_influence."
  },
  {
   "property": "C163",
   "status": "proved",
   "theorems": [
    "float_member_weights"
   ],
   "note": "Which points are in a cylinder is decided by the rounded differences and any norm. Overflow, nan and the sign of zero are not modelled."
  },
  {
   "property": "C164",
   "status": "proved",
   "theorems": [
    "float_times",
    "float_times_exact",
    "float_times_nearest_refuted"
   ],
   "note": "Fractions and products rounded as by Python: quotient to binary64, timedelta product to microseconds, ties to even. That the stamp is the nearest one to the exact line is refuted by a gap of 9 microseconds over six rows."
  },
  {
   "property": "C165",
   "status": "proved",
   "theorems": [
    "float_fill",
    "float_fill_measured",
    "float_fill_order"
   ],
   "note": "One row at a time; the rows do not influence each other since only measured values are used."
  },
  {
   "property": "C166",
   "status": "proved",
   "theorems": [
    "convex_sails"
   ],
   "note": "The hull is a parameter; only that its vertices are indices of points is assumed."
  },
  {
   "property": "C167",
   "status": "proved",
   "theorems": [
    "float_nmea",
    "float_nmea_monotone"
   ],
   "note": "The text of the number is read correctly rounded. Hemispheres are not part of the decoded text (see C58)."
  },
  {
   "property": "C168",
   "status": "proved",
   "theorems": [
    "float_qa",
    "float_qa_exact",
    "float_qa_average_refuted"
   ],
   "note": "The last sentence is the refutation of the expected order of the figures."
  },
  {
   "property": "C169",
   "status": "proved",
   "theorems": [
    "handler_counts"
   ],
   "note": "Data objects of the handlers are well formed by the theorems on the handlers (array_columns_kept, csv_columns_kept)."
  }
 ]
}
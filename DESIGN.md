# Formal model of hrosailing

The Rocq development in `rocq/theories` is a hand written model of the Python
package in `/repo/hrosailing` with theorems about it.  `XModel.v` contains the
model of a module, `XSpec.v` (or the first part of `XProps.v`) the notions in
which the properties are stated, `XProofs.v` lemmas, `XProps.v` the theorems
with `Print Assumptions` and examples.

## Trusted base

* The kernel of Coq 8.16.1 with its virtual machine (`vm_compute` in examples).
* The axioms that `Print Assumptions` lists.  Only four axioms of Coq's
  standard library occur; the letters are used in the list of theorems below:
  * S `ClassicalDedekindReals.sig_forall_dec`
  * N `ClassicalDedekindReals.sig_not_dec`
  * E `FunctionalExtensionality.functional_extensionality_dep`
  * C `Classical_Prop.classic`

  All come with `Coq.Reals`: S, N and E with the real numbers, C with
  derivatives and trigonometric functions.  `0` means closed under the global
  context.  Theorems per set of axioms: 0: 154, S: 10, SE: 179, SNE: 95, SNEC: 194.
* Flocq is used in the files `Float*.v` only (rounding to binary64); it adds no axioms
  of its own.
* That each definition of the model does what the cited lines do.  Every
  definition cites file and lines and names its simplifications.
* That the statements of the theorems say what the properties mean.  The
  notions used in them are defined next to them and do not use the helper
  functions of the model.

## Conventions

* Numbers are exact reals.  Rounding is modelled in the files `Float*.v` only, without overflow; `FNum` of
  `FloatSmooth.v` is the instance of `Num` that rounds every operation to binary64.  Not modelled are `nan` and `inf`: a numpy operation that would give them ends in
  the separate outcome `Raise NonFinite`.  In particular the sine of a multiple
  of 180 degrees is 0 in the model, and converting degrees to radians and back
  gives the same number.
* Models of the polar diagrams, filters, interpolators and neighbourhoods are
  polymorphic in the number type (class `Num`); the theorems are about `R`, the
  tests also run on `Q`.  Cells of `Data` objects are strings, rationals,
  integers, dates and so on (`pyval`).
* Exceptions are values, `result A := Ok a | Raise e`.  Functions that change
  an object return its new state; where the state after an exception matters,
  they return state and outcome.
* Loops without a structural bound run on fuel; running out of it is the
  separate outcome `Raise OutOfFuel`, which no Python exception equals.
* Dictionaries are association lists in the order of insertion.  Strings are
  ASCII.
* Sharing of list objects between objects is modelled only where a property is
  about it (C05, C49, C106, C145, C152).  C145 proves that for `Data` objects it makes no
  difference unless a program stores a list under a new key or takes a slice.

## What is modelled

| source | model |
|--------|-------|
| core/computing.py | `WindModel.v` |
| core/data.py | `DataModel.v` (`Data`), `SharedModel.v` (the same with list objects), `DataTextModel.v` (`__str__`), `RowsModel.v` (`Data.rows` as a generator), `WPointsModel.v` (`WeightedPoints`) |
| core/modelfunctions | `ModelFunModel.v` |
| polardiagram/_basepolardiagram.py | `BaseModel.v` |
| polardiagram/_polardiagramtable.py | `TableModel.v`, `CsvModel.v`, `StrModel.v` |
| polardiagram/_reading.py | `CsvModel.v`, `CsvTextModel.v` (files typed by hand: `CsvLines.v`) |
| polardiagram/_polardiagrampointcloud.py | `CloudModel.v`, `StrModel.v` |
| polardiagram/_polardiagramcurve.py | `CurveModel.v` |
| polardiagram/_polardiagrammultisails.py | `MultiModel.v`, `StrModel.v` |
| processing/neighbourhood.py, interpolator.py | `NhoodModel.v`, `InterpModel.v` |
| processing/filter.py, weigher.py | `FilterModel.v`, `WeigherModel.v`, `FuzzyModel.v` |
| processing/imputator.py, smoother.py | `ImputModel.v`, `SmoothModel.v` (exact values of smoothed rows: `SmoothExact.v`, `SmoothTies.v`) |
| processing/sampler.py, injector.py | `SamplerModel.v`, `InjectModel.v` |
| processing/datahandler.py, regressor.py | `HandlerModel.v`, `HandlerRest.v`, `RegrModel.v` |
| pipeline/pipeline.py, expander.py | `PipeModel.v`, `ExpandModel.v`, `WholeModel.v` (the pipeline with its default components), `FullModel.v` (the same with the default weighers and filters), `StatsModel.v` (the dictionaries of statistics as objects) |
| pipeline/extensions.py, quality_assurance.py | `ExtModel.v`, `QAModel.v` |
| models/weather_model.py | `WeatherModel.v` (text of dates in files: `WeatherText.v`), `MeteoModel.v` |
| models/globe_model.py, influencemodel.py | `GlobeModel.v`, `InfluenceModel.v` |
| cruising/basics.py | `CruiseModel.v` (theorems in `ConvexProps.v`, `ConvexInfluence.v`, `ConvexSails.v`, `CruiseProps.v`), `DirTextModel.v` (text of a direction) |
| plotting/projections.py | `PlotModel.v`, `LegendModel.v`, `GradientModel.v`, `PlotAllModel.v` (with hulls: `PlotHull.v`), `SpaceModel.v` (3D scatter) |
| calls of diagrams with the arrays of the caller as objects | `ArgsModel.v` |
| `__repr__` methods of components | `ReprModel.v` |
| files in the format array | `ArrayTextModel.v` (typed by hand: `ArrayLines.v`) |
| floating point versions | `FloatMod.v`, `FloatUnit.v`, `FloatSteps.v`, `FloatAverage.v`, `FloatSmooth.v`, `FloatWeather.v`, `FloatQuantile.v`, `FloatMirror.v`, `FloatTable.v`, `FloatTableSym.v`, `FloatWeigh.v`, `FloatFluct.v`, `FloatMember.v`, `FloatTimes.v`, `FloatFill.v`, `FloatNmea.v`, `FloatQA.v`, `FloatSpace.v` |
| the `get_slices` defaults of polardiagram/ | `DefaultsModel.v` |

## What is not modelled

* Drawing by matplotlib: the model ends with what is handed to it (lines,
  colour cycles, legend entries, triangles).  Keyword arguments for the
  appearance, axis labels and ticks, and the front ends that only pass
  arguments on are left out.
* `__repr__` of diagrams other than curves, of fuzzy items and interpolators beyond C143, log messages, warnings.
* Abstract classes without code, the version and constants modules (constants
  occur with their values where they are used).  `core/statistics.py` (a
  dictionary stored and read) occurs in C44, C52, C53, C64, C88 and as objects in
  `StatsModel.v`.
* The branches with pandas in reading files and in the csv handler; encodings
  and the text format of JSON, NMEA 0183 (checksums, fields) and netCDF.
* Sharing of arrays other than stated above, threads, memory and time needed.

## External code

Code of other libraries occurs as a parameter of the model.  The theorems hold
for all values of the parameter, or under a hypothesis written in the theorem:

* `scipy.spatial.ConvexHull`: cruising (C75, C76, C108) for any hull function, with the
  hypothesis that the vertices are those of the convex hull in counterclockwise
  order; plotting (C112, C113) for any list of vertices; samplers (C55) with
  the hypothesis that the inequalities describe the hull.
* `np.argsort` in plotting: any function that sorts by the key.
* The solver of ordinary differential equations in `cost_cruise`: any function;
  where needed, with the hypothesis that its nodes run from the start to the end
  of the interval (`solution` in `IsochroneProps.v`).
* `scipy` regression: any solver (C61).
* Random numbers: any sequence within the bounds (C55).
* Texts of numbers: any function that `float` or `literal_eval` inverts on the
  numbers in question (C20, C25, C31, C34), or under which different doubles
  have different texts (C119).
* `meteostat`, `netCDF4`, `pynmea2`, `datetime.strptime`: any answers.
* `is_color_like` and `to_rgb` of matplotlib: any functions.
* Components of the pipeline (C62-C65): any functions that may change a common
  state and may raise.
* The contained diagrams of a diagram with several sails: any functions for
  calling, slicing, symmetrising, writing and reading.

## Tests against wrong programs

`seeded/LOG.jsonl` lists edits of model definitions made in a scratch copy,
the claim each contradicts, and the theorems whose proofs failed.  A failed proof
script does not by itself show that the theorem became false: two edits of this
kind (the order of reading in `ArgsModel.step`, the first piece in
`SmoothModel.approx_one`) turned out to break a tactic only, and theorems that
they do contradict were added.  The other entries were not all checked in this
respect.  For the larger modules only files of the same group (for instance `DataModel`,
`DataProofs*`, `DataProps`) were rebuilt; theorems in other groups that depend
on them are not listed as failed.

## Results

A claim with status *partial* is either proved under additional conditions, or
false in general; then a theorem named `..._refuted` proves a counterexample
and theorems named `..._partial` prove it for the inputs on which it holds.
Theorems are followed by their axioms.


### C01 True -> apparent -> true wind is the identity (proved)

All records with positive wind speed, any angle and boat speed, apparent wind not zero.

* `WindProps.v`: `true_apparent_true` [SNEC]

### C02 Apparent -> true -> apparent wind is the identity (proved)

All records with positive apparent speed, true wind not zero.

* `WindProps.v`: `apparent_true_apparent` [SNEC]

### C03 Wind conversion is vector addition (proved)

The vector equation, the sign and the angle range hold for every row; the angle is undefined (nan) exactly for a vanishing converted wind. The extra theorem shows that 360 itself is reached, so the range is not half open.

* `WindProps.v`: `conversion_is_vector_sum` [SNEC], `conversion_undefined_iff` [SNEC], `converted_angle_360_refuted` [SNEC]

### C04 Wind conversion is row-wise and validates its input (proved)

For arrays of any length and width.

* `WindProps.v`: `conversion_is_rowwise` [SNEC], `conversion_validates` [SNEC]

### C05 Wind conversion leaves the caller's array alone (partial)

True when all angles already lie in [0,360); false for a float array with other angles, which is normalised in place.

* `WindProps.v`: `conversion_keeps_argument_partial` [SNEC], `conversion_keeps_argument_refuted` [SNEC]

### C06 The standard distance is a norm (proved)

Norm axioms for two and three attributes, NotImplementedError for other widths.

* `WindProps.v`: `scaled_norm_value` [SNE], `scaled_norm_is_norm` [SNE], `scaled_norm_other_widths` [SNE]

### C07 Data.update appends rows (proved)

Columns of unequal lengths are covered too: the row count grows by the longest given entry.

* `DataProps.v`: `update_appends_rows` [0], `update_rejects_mixed_types` [0], `update_compress_reuses_last_row` [0], `update_compress_otherwise_appends` [0]

### C08 Data.concatenate stacks rows (proved)

Hypothesis: each input has a column or no rows.

* `DataProps.v`: `concatenate_stacks_rows` [0]

### C09 Columns stay type homogeneous (proved)

Invariant over all histories of 16 operations, failing ones included.

* `DataProps.v`: `columns_stay_homogeneous` [0], `filter_types_exact` [0]
* `DataKeyProps.v`: `get_by_type_exact` [0]

### C10 A rejected write leaves Data unchanged (partial)

True for extend and append; false for update, which leaves ragged columns behind. The state after a rejected update is given exactly: the entries before the first one that does not fit are added, all old rows stay as they are.

* `DataProps.v`: `extend_rejected_changes_nothing_partial` [0], `update_rejected_refuted` [0]
* `DataRejected.v`: `update_rejected_state` [0]

### C11 Deleting rows removes exactly those rows (partial)

The columns are right for every index list; n_rows is wrong for repeated indices.

* `DataProps.v`: `delete_rows_keeps_the_others` [0], `delete_rows_row_count_partial` [0], `delete_rows_row_count_refuted` [0]

### C12 strip removes only empty parts (partial)

Columns right; n_rows is stale after strip('rows'), and the loop does not end without columns.

* `DataProps.v`: `strip_cols_removes_empty_columns` [0], `strip_rows_cuts_empty_rows_partial` [0], `strip_rows_row_count_refuted` [0], `strip_terminates_refuted` [0], `strip_rows_empty_table_raises` [0]

### C13 rename only changes the key (proved)



* `DataProps.v`: `rename_only_changes_the_key` [0], `rename_rejects` [0]

### C14 Key standardisation loses nothing and is stable (partial)

False for separator-only keys (IndexError) and for date+time beside a datetime column (ragged columns).

* `DataProps.v`: `standard_key_stable` [0], `free_key_search_ends` [0], `standard_keys_lose_nothing` [0], `standard_format_partial` [0], `datetime_joined` [0], `standard_format_refuted` [0]
* `DataKeyProps.v`: `standard_key_meaning` [0]

### C15 Row masks, column slices and row indexing agree (proved)



* `DataProps.v`: `mask_keeps_marked_rows` [0], `slice_keeps_named_columns` [0], `mask_and_slice_commute` [0], `row_access` [0], `iteration_yields_rows` [0], `filter_types_exact` [0]

### C16 WeightedPoints keeps points and weights aligned (partial)

Masking and extending keep alignment; a length mismatch does not raise in the constructor.

* `DataProps.v`: `weighted_mask` [0], `weighted_extend` [0], `weighted_scalar_partial` [0], `weighted_points_refuted` [0]

### C17 A table returns the entry it was given (proved)

Distinct winds are assumed as in the statement; table_duplicates_refuted shows what happens otherwise.

* `TableProps.v`: `table_returns_entries` [SE]

### C18 Table resolutions are sorted and normalised (proved)



* `TableProps.v`: `table_resolutions` [SE], `table_given_winds` [SE], `table_steps` [SE], `table_rejects` [SE], `table_default_winds` [SE]

### C19 change_entries changes exactly the selected cells (partial)

Proved for ascending selections in tables with distinct winds; false for selections in other orders (finding): order and repetitions in the lists make no difference (change_entries_set), the values are always distributed in ascending order.

* `TableProps.v`: `change_entries_changes` [SE], `change_entries_rejects` [SE], `change_entries_unsorted_refuted` [0], `change_entries_set` [SE]

### C20 symmetrize makes a table symmetric and keeps its entries (proved)



* `TableProps.v`: `symmetrize_entries` [SE], `symmetrize_symmetric` [SE], `symmetrize_twice_refuted` [0]

### C21 Table CSV files round-trip (proved)

csv splitting and number printing are parameters; the numbers of the table are assumed to survive printing and reading. Tables with empty resolution (step equal to the maximum) cannot be read back.

* `CsvProps.v`: `table_hro_round_trip` [SE], `table_extern_round_trip` [SE], `table_csv_empty_refuted` [SE]

### C22 Interpolated table speeds stay within the used entries (proved)



* `TableProps.v`: `table_call_in_range` [SNE], `table_call_default_in_range` [SNE]

### C23 Table slices agree with the table (partial)

False for tables created without boat speeds when a single wind speed is given as a plain number (finding).

* `TableProps.v`: `table_slice_listed` [SE], `table_slice_called` [SE], `table_slices_order` [SE], `zero_table_slice_refuted` [0]

### C24 A point cloud returns the points it was given (partial)

Proved for positive wind speeds. Points with wind speed 0 are kept but calling the cloud there raises ValueError (cloud_zero_wind_refuted).

* `CloudProps.v`: `cloud_keeps_points` [SE], `cloud_returns_points` [SE], `cloud_nonpositive` [SE], `cloud_periodic` [SE], `cloud_zero_wind_refuted` [SE]

### C25 add_points appends (proved)

Proved. The caller's array is reduced in place as a side effect (add_points_changes_argument_refuted).

* `CloudProps.v`: `add_points_appends` [SE], `add_points_rejects` [SE], `add_points_changes_argument_refuted` [0]

### C26 Cloud symmetrisation mirrors every point (proved)

Proved for all clouds.

* `CloudProps.v`: `symmetrize_mirrors` [SE]

### C27 Cloud CSV files round-trip (proved)

Proved for non-empty clouds whose numbers are readable; the empty cloud is written but raises IndexError when read.

* `CloudProps.v`: `cloud_csv_round_trip` [SE], `cloud_csv_empty_refuted` [SE]

### C28 Interpolated cloud speeds stay within the stored speeds (partial)

False for the default interpolator ArithmeticMeanInterpolator(50), which multiplies by 50; true for scaling factor 1.

* `CloudProps.v`: `cloud_call_in_range_partial` [SNE], `cloud_default_times_50` [SNE], `cloud_default_refuted` [SNE]

### C29 Several sails: the best sail counts (proved)

Proved for diagrams of any type.

* `MultiProps.v`: `multi_call_best` [SE], `multi_call_raises` [SE], `multi_names` [0], `multi_getitem_first` [0], `multi_symmetrize_all` [0]

### C30 Slice info names the sail of every point (proved)

Proved for diagrams of any type that return one slice per wind speed; instantiated with tables.

* `MultiProps.v`: `slice_info_names` [0], `multi_tables_slice_info` [SE]

### C31 Multi-sail files round-trip whatever else is written (partial)

Round trip proved, also after later writes to paths with another part before the first dot; false for paths sharing that part, whose sub-files collide.

* `MultiProps.v`: `multi_csv_round_trip` [0], `multi_tables_round_trip` [SE], `multi_csv_history_partial` [0], `multi_csv_overwritten_refuted` [0]

### C32 Curves are 360 degree periodic (proved)

Proved for all functions and both units.

* `CurveProps.v`: `curve_periodic` [SNE], `curve_evaluates` [SNE], `curve_negative` [SNE], `curve_construction` [S]

### C33 Curve symmetrisation is symmetric (partial)

Symmetric and idempotent in degrees; false for radians; at wind from ahead the value is not the mean.

* `CurveProps.v`: `curve_symmetric_partial` [SNE], `curve_symmetric_mean_partial` [SNE], `curve_symmetrize_twice` [SNE], `curve_symmetric_ahead_refuted` [SNE], `curve_symmetric_radians_refuted` [SNE]

### C34 Curve CSV files round-trip (proved)

Proved for library functions; a symmetrised curve is written but cannot be read.

* `CurveProps.v`: `curve_csv_round_trip` [S], `symmetrized_csv_refuted` [SE]

### C35 Requested slices interpolate wind speeds evenly (proved)

Proved for all wind speed lists and n_steps.

* `BaseProps.v`: `windspeeds_even` [SE], `windspeeds_other` [SE]

### C36 Inverse distance interpolation reproduces and does not overshoot (proved)

For every row-wise norm (the default norm is one), every p, every point list. Integer exponents.

* `InterpProps.v`: `default_norm_applies` [SNE], `idw_reproduces` [SE], `idw_weighted_mean` [SE], `idw_order_independent` [SE], `idw_rejects` [SE]

### C37 Arithmetic mean interpolation is a weighted mean (proved)

For every distribution; the last theorem records that a factor s other than 1 (the first positional argument) leaves the range.

* `InterpProps.v`: `amean_reproduces` [SE], `amean_weighted_mean` [SE], `amean_default_in_range` [SNE], `default_distribution` [SNE], `amean_scaled_refuted` [SNE]

### C38 Improved inverse distance interpolation is defined and does not overshoot (partial)

Holds when the points are not all equally far from the query; a single or equidistant points give nan (refuted).

* `InterpProps.v`: `improved_idw_partial` [SE], `improved_idw_equidistant` [SE], `improved_idw_single_refuted` [SNE]

### C39 Shepard interpolation uses direction cosines (partial)

Reproduction proved. The direction term mixes columns and is not a cosine (witness above 1). Constant data give nan. The returned value is proved to be the weighted mean of the documented form for grid points further than the tolerance from every point, with the direction and slope terms as the code computes them.

* `InterpProps.v`: `shepard_reproduces_partial` [SE], `shepard_direction_refuted` [SNE], `shepard_constant_undefined` [SNE]
* `ShepardProps.v`: `shepard_formula_partial` [SNE], `shepard_tolerance_partial` [SE]

### C40 Bilinear interpolation is exact on bilinear data (proved)

All point lists, all queries.

* `InterpProps.v`: `bilinear_is_bilinear` [SE], `bilinear_exact` [SE], `bilinear_in_range` [SE], `bilinear_reproduces` [SE], `bilinear_defined` [SE], `bilinear_outside` [SE], `bilinear_other_width` [SE]

### C41 Neighbourhood masks say exactly what they mean (proved)

Mask entry i is true exactly for points in the documented set; parameter validation.

* `NhoodProps.v`: `ball_marks` [SE], `ball_norm_raises` [SE], `ball_radius` [SE], `ellipsoid_marks` [SE], `ellipsoid_rejects` [SE], `ellipsoid_default` [SE], `cuboid_marks` [SE], `polytope_marks` [SE], `polytope_shapes` [0]

### C42 ScalingBall finds its minimum number of points (partial)

Holds for all non-empty point lists; an empty list returns True instead of the promised error (refuted part).

* `NhoodProps.v`: `scaling_ball_marks` [SE], `scaling_ball_too_few` [SE], `scaling_ball_min_pts` [0], `scaling_ball_empty_refuted` [0]

### C43 QuantileFilter removes the lightest points and not too many (partial)

At least one point is kept and only the lightest are removed. That less than percent per cent are removed is false: 10 per cent of three points removes one point. The number removed is bounded by percent (n-1)/100 rounded up instead.

* `FilterProps.v`: `quantile_keeps_heaviest` [SE], `quantile_removes_partial` [SE], `quantile_removes_enough` [SE], `quantile_removes_refuted` [0], `quantile_rejects` [SE]

### C44 BoundFilter keeps exactly the points within the bounds (partial)

Proved for weights given as arrays. Weights given as a list, as FluctuationWeigher returns them, raise TypeError.

* `FilterProps.v`: `bound_filter_exact` [SE], `bound_rejects` [SE], `filter_statistics_counts` [0], `bound_filter_list_refuted` [SE]

### C45 CylindricMeanWeigher weights lie in [0,1] (partial)

Proved for arrays with any row-wise norm of matching dimension, for the default norm and for data objects. False: arrays with more than three columns raise ValueError with the default norm although the documentation allows them, and data with no numeric column besides the speed gets no weights.

* `WeigherProps.v`: `mean_weights` [SNE], `mean_weights_default` [SNE], `mean_weights_data` [SNE], `mean_rejects` [SNE], `mean_four_columns_refuted` [SNE], `mean_only_speed_refuted` [SNE]

### C46 CylindricMemberWeigher weights are normalised neighbour counts (partial)

Proved for arrays with any row-wise norm. False: with named dimensions and the default norm every non-empty data raises ValueError.

* `WeigherProps.v`: `member_weights` [SNE], `member_rejects` [SNE], `member_dimensions_refuted` [SNE]

### C47 FluctuationWeigher applies bound i to attribute i (partial)

Proved when attributes are listed in the order of the data, times are chronological and bounds positive. False otherwise: bounds are applied in the order of the data columns, unordered times use measurements outside the window, and a zero bound gives nan.

* `WeigherProps.v`: `fluctuation_weights_partial` [SNE], `fluctuation_order_refuted` [SNE], `fluctuation_zero_bound_refuted` [SNE], `fluctuation_unordered_refuted` [SNE], `fluctuation_missing_attributes` [SNE]

### C48 Weigher arithmetic combines weights pointwise (partial)

The claim is false: every combined weigher raises ValueError unless there are exactly two points, then it returns one number; weigher - a and a / weigher raise TypeError for numbers.

* `WeigherProps.v`: `combined_weigher_raises` [SE], `combined_weigher_two_partial` [S], `weigher_sum_refuted` [S], `weigher_numbers_refuted` [SE], `combined_weigher_two_ops_partial` [SE], `weigher_with_constants_partial` [SE]

### C49 A weigher can be used again (partial)

Same input twice gives the same result for arrays, for mean weighers without named dimensions and for member weighers. False: a mean weigher with named dimensions changes the user's list and fails the second time; other data in between changes later results.

* `WeigherProps.v`: `mean_reuse_array` [SNE], `mean_reuse_data` [SNE], `member_reuse` [SE], `mean_reuse_refuted` [SNE], `mean_history_refuted` [SNE], `member_history_refuted` [SNE]

### C50 Fuzzy expressions obey fuzzy logic (partial)

Full for range, De Morgan, complement; the exact truth function is proved for all expressions except x(s) == a with its own sharpness (see C51).

* `FuzzyProps.v`: `fuzzy_truth_partial` [SNE], `fuzzy_values` [SNE], `fuzzy_de_morgan` [SE], `fuzzy_comparisons` [SNEC], `fuzzy_weights_partial` [SNE]

### C51 A fuzzy comparison uses the requested sharpness (partial)

Proved for <, <=, >, >=. False for ==: only one half uses s. An x(s) that is not compared stays pending.

* `FuzzyProps.v`: `sharpness_used_partial` [SNE], `sharpness_eq_refuted` [SNEC], `sharpness_pending_refuted` [SNEC]

### C52 RemoveOnlyImputator keeps exactly the complete rows (partial)

The result is proved to be exactly the complete rows in order; the statistic n_removed_rows is the number of kept rows (refuted).

* `ImputProps.v`: `remove_only_rows` [0], `remove_only_statistic_refuted` [0]

### C53 FillLocalImputator fills gaps and keeps measurements (partial)

Full characterisation for all tables and fill functions; the claim about time stamps between close stamps fails after a jump, and unordered stamps are overwritten (refuted).

* `ImputProps.v`: `fill_local_result` [0], `fill_local_keeps` [0], `fill_local_raises` [0], `fill_local_jump_refuted` [0], `fill_local_overwrites_refuted` [0]
* `ImputDefaultProps.v`: `default_imputation` [0]

### C54 AffineSmoother keeps the range of the signal (partial)

Range, row count and other columns are proved for chronological data; unordered data is only rejected when a stamp precedes the first one, and a single row raises IndexError (refuted).

* `SmoothProps.v`: `smooth_table` [SE], `smooth_far_partial` [SE], `smooth_constant` [SE], `smooth_rejects` [SE], `smooth_lazy` [0], `smooth_unordered_refuted` [SE], `smooth_end_refuted` [SE], `smooth_single_refuted` [SE], `smooth_keeps_rows` [SE]

### C55 Samplers return the requested number of points inside the data (partial)

Full for every run that returns; that the rescaling always returns is refuted by a symmetric base set.

* `SamplerProps.v`: `uniform_sample_ok` [SE], `spiral_sample_ok` [SNE], `sampler_number` [0], `rescale_terminates` [SE], `rescale_diverges_refuted` [SE], `spiral_number_of_points` [SNE]

### C56 The enclosing circle encloses (proved)

For every run that returns; the random shuffle is an arbitrary permutation. small_circle_contains also shows that no RuntimeError occurs for up to three points.

* `SamplerProps.v`: `make_circle_encloses` [SNE], `small_circle_contains` [SNE]

### C57 ZeroInjector adds n_zeros points at 0 and at 360 degrees (proved)



* `InjectProps.v`: `zeros_injected` [SE], `zeros_refused` [SE]

### C58 NMEA coordinates are decoded to signed degrees (partial)

The conversion of degrees and minutes is proved; refuted: the hemisphere letter is ignored, so southern and western positions get the wrong sign. The decoded position replaces the sentence fields, other fields are kept.

* `HandlerProps.v`: `nmea_coordinate` [0], `nmea_hemisphere_refuted` [0], `nmea_position` [0]

### C59 NMEA time stamps are decoded to the time they denote (partial)

Proved for time stamps with six fraction digits. Refuted: the fraction digits are read as microseconds whatever their number, a stamp without fraction raises IndexError and one with more than six digits ValueError.

* `HandlerProps.v`: `nmea_time_partial` [0], `nmea_time_refuted` [0]
* `HandlerRest.v`: `nmea_timestamp` [0]

### C60 ArrayHandler keeps columns (partial)

Proved for distinct keys; refuted for a key given twice, where the earlier column is lost.

* `HandlerProps.v`: `array_columns_kept` [0], `array_wrong_keys` [0], `array_duplicate_refuted` [0]

### C61 The regressor can start on every model function (partial)

Proved for functions taking *params; refuted for every function with named parameters: two initial values too many are used and fit raises TypeError.

* `RegrProps.v`: `regressor_start_partial` [S], `regressor_start_builtin` [SNE], `regressor_start_refuted` [SE], `odr_refuses` [0], `fit_evaluates` [0]

### C62 Pipeline switches switch off their stage (proved)

For arbitrary stateful components that may raise.

* `PipeProps.v`: `pipeline_run` [0], `pipeline_complete` [0], `pipeline_no_fields` [0]

### C63 Test data does not influence the diagram (proved)

For arbitrary stateful components.

* `PipeProps.v`: `test_data_irrelevant` [0]

### C64 Pipeline statistics report the stage they are named after (partial)

All fields but one are proved; refuted: pre_expanding_filter of the training statistics holds the statistics of pre_influence_filter.

* `PipeProps.v`: `pipeline_run` [0], `pre_expanding_statistics_refuted` [0]

### C65 A list of data handlers is matched with the data (partial)

Proved for an iterator of handlers; refuted for a list (the documented type): every run raises TypeError.

* `PipeProps.v`: `handlers_matched_partial` [0], `handlers_list_refuted` [0]

### C66 TableExtension interpolates every grid point (partial)

Entries proved for every grid of distinct winds, everything for the default resolution min_max; refuted for auto, whose resolution contains winds twice, in particular always after the default injector. The winds that auto adds are characterised exactly.

* `ExtProps.v`: `table_extension_entries` [SE], `table_min_max` [SE], `auto_resolution_partial` [SE], `auto_resolution_refuted` [SE], `auto_resolution_counts` [SE]

### C67 WeatherExpander adds the weather of each row to this row (partial)

The weather is appended as rows of its own below the data instead of being joined to the rows; with no answer at all the mode ignore raises TypeError.

* `ExpandProps.v`: `weather_rows_partial` [0], `weather_expander_refuted` [0]

### C68 Quality figures are consistent (proved)

Exact arithmetic.

* `QAProps.v`: `minimal_figures_correct` [SE], `minimal_check_total` [SE], `conforming_figures_correct` [SE]

### C69 Gridded weather is exact at grid points and interpolates between them (partial)

Affine interpolation proved for coordinates that are no grid value or the first one. False for other grid values: the index within the cuboid is taken for the grid index, so grid points get the weather of the first grid point.

* `WeatherProps.v`: `gridded_weather_partial` [SE], `gridded_grid_point` [SE], `gridded_weather_refuted` [SE], `interpolation_between` [SE], `outside_raises` [SE]

### C70 MultiWeatherModel combines its models (partial)

Last supplier wins and failing models are skipped for ValueError, TypeError and KeyError; the documented NotImplementedError is not caught.

* `WeatherProps.v`: `multi_weather_partial` [0], `multi_weather_sensitive` [0], `multi_weather_refuted` [0]

### C71 Weather files round-trip (partial)

Round trip for dates from year 1000 on without fractions of a second; fractions are lost, numeric times and earlier years cannot be read. JSON text itself and locales other than C are trusted or left out.

* `WeatherProps.v`: `file_roundtrip_partial` [0], `file_roundtrip_refuted` [S]
* `WeatherText.v`: `file_date_text` [0], `file_early_years` [0], `file_dates_valid` [0]

### C72 SphericalGlobe projection round-trips and measures great circles (partial)

Full, except that the path from a position to itself or to its antipode raises LinAlgError (refuted there).

* `GlobeProps.v`: `spherical_round_trip` [SNEC], `spherical_round_trip_place` [SNEC], `spherical_round_trip_points` [SNEC], `spherical_project_norm` [SNE], `spherical_distance` [SNEC], `spherical_distance_metric` [SNEC], `spherical_distance_zero` [SNEC], `same_place_proper` [SNEC], `spherical_path` [SNEC], `spherical_projected_path_norm` [SNEC], `spherical_path_refuted` [SNEC]

### C73 FlatMercatorProjection round-trips (partial)

Full for perpendicular virtual pole and zero (in particular the defaults); refuted for others, which the constructor accepts.

* `GlobeProps.v`: `mercator_round_trip` [SNEC], `mercator_default` [SNEC], `mercator_constructor` [SNE], `mercator_round_trip_points` [SNEC], `mercator_distance` [SNEC], `mercator_distance_metric` [SNEC], `mercator_distance_zero` [SNEC], `mercator_path` [SNEC], `mercator_round_trip_refuted` [SNEC]

### C74 Influence models are consistent (partial)

Identity model proved; the wind angle correction holds for lists only: a single record ignores the shift when adding and raises IndexError when removing.

* `InfluenceProps.v`: `identity_remove_true_wind` [SNEC], `identity_remove_apparent_wind` [SNEC], `remove_refuses` [SNEC], `identity_add_evaluates` [S], `wac_add_lists_partial` [SE], `wac_remove_lists_partial` [SNEC], `wac_single_record_refuted` [SNEC]

### C75 convex_direction gives a convex combination towards the goal (partial)

For slices in which the boat can make way in every direction the call succeeds, and two directions are a convex combination towards the goal. Refuted for one direction (90 requested, 90 recorded and optimal, 0 returned), and for other slices: proportions outside [0,1], way in the opposite direction.

* `ConvexProps.v`: `convex_direction_partial` [SNE], `convex_direction_single_refuted` [SNE], `convex_direction_proportion_refuted` [SNE], `convex_direction_opposite_refuted` [SNE]

### C76 cruise reaches the destination (partial)

Total length of the legs is the distance; with two legs they lead in the wanted direction but not beyond the distance. Refuted: zigzag legs have the length of the straight way.

* `CruiseProps.v`: `cruise_legs_partial` [SNEC], `cruise_reaches_refuted` [SNEC]

### C77 isochrone stops exactly at the time limit (partial)

Every returned way takes exactly the total time with at least min_nodes steps; termination for speeds bounded from above and below; refuted for no speed and for total_time 0.

* `IsochroneProps.v`: `isochrone_time` [SNEC], `isochrone_terminates_partial` [SNEC], `isochrone_constant` [SNEC], `isochrone_no_speed_refuted` [SNEC], `isochrone_zero_time_refuted` [SNEC], `isochrone_no_nodes` [SNEC]

### C78 A slower boat is never faster (partial)

True for positive speeds; speed 0 gives time 0.

* `IsochroneProps.v`: `inverse_speed` [SNEC], `slower_boat_partial` [SNEC], `no_speed_refuted` [SNEC], `no_weather` [SNEC]

### C79 Cruise coordinate transformations invert each other (partial)

Mutually inverse for second coordinates in (-90,90); refuted beyond. Wind components proved; the documented range of the direction is refuted.

* `CruiseProps.v`: `mercator_inverse` [SNEC], `mercator_inverse_back` [SNEC], `mercator_inverse_refuted` [SNEC], `uv_components` [SNEC], `uv_components_back` [SNEC], `tw_components` [SNEC], `wind_direction_range_partial` [SNEC], `wind_direction_range_refuted` [SNEC]

### C80 Plotting with info keeps every point with its group (partial)

The splitting is proved for all slices and info lists, plotting for slices in ascending order of angles. False for the slices of a diagram with several sails: the points are sorted by angle, the names are not.

* `PlotProps.v`: `split_by_info` [0], `split_complete` [0], `plot_groups_partial` [SNE], `plot_groups_refuted` [SNE]
* `PlotAllProps.v`: `whole_plot_sails_partial` [SNE]

### C81 Colour gradient coefficients are in [0,1] (partial)

Proved for at least two different values; equal values give 0/0.

* `PlotProps.v`: `gradient_partial` [SE], `gradient_monotone` [SE], `gradient_colors` [SE], `gradient_equal_refuted` [SE]

### C82 Model functions vanish head to wind (partial)

Proved for all predefined functions but ws_s_wa_gauss, which fails with its documented parameters.

* `ModelFunProps.v`: `model_functions_documented` [SNE], `default_model_zero` [SNE], `default_model_mirrored` [SNE], `model_functions_too_few` [SNE], `ws_s_wa_gauss_refuted` [SNEC]

### C83 Angle reduction yields [0,360) in floating point (partial)

Closed interval [0,360] proved, with the exact set of numbers that are reduced to 360; half open refuted. Rounding by the operator of Flocq.

* `FloatMod.v`: `fmod_exact` [SNEC], `mod_closed_partial` [SNEC], `mod_error` [SNEC], `mod_360_iff` [SNEC], `mod_half_open_refuted` [SNEC], `exact_mod_unique` [SE]

### C84 Calling a table is 360 degree periodic (partial)

True at listed winds, false between them (finding).

* `TableProps.v`: `table_returns_entries` [SE], `table_call_periodic_refuted` [0]

### C85 get_points evaluates the diagram at every requested wind (proved)

Proved for all diagrams.

* `BaseProps.v`: `get_points_evaluates` [SE], `get_wind_meaning` [SE]

### C86 Cloud slices hold exactly the nearby points (proved)

Proved for slices without interpolator.

* `CloudProps.v`: `cloud_slices_exact` [SE]

### C87 Curve slices hold the boat speed of the listed angle (partial)

Proved for degrees; with radians=True the degrees 0 to 360 are passed as radians.

* `CurveProps.v`: `curve_slices_values_partial` [SNE], `curve_slices_radians_refuted` [SNEC]

### C88 The weight distribution in a weigher's statistics accounts for every weight once (partial)

Range and coverage proved; the sum is false: weights on a boundary count twice, equal weights ten times.

* `WeigherProps.v`: `deciles_cover` [SE], `deciles_sum_refuted` [SE]

### C89 The csv handler keeps every column (partial)

Branch without pandas. Refuted: columns with equal names are mixed; a bare word raises ValueError instead of the documented RuntimeError.

* `HandlerProps.v`: `csv_columns_kept` [0], `csv_long_row` [0], `csv_duplicate_refuted` [0], `csv_word_refuted` [0]

### C90 NMEA wind sentences keep their reference and filters keep what was asked (partial)

Refuted for wanted_attributes=["AWS"], which stores apparent wind speeds as TWS.

* `HandlerProps.v`: `nmea_wind_reference` [0], `nmea_filters` [0], `nmea_wanted_attribute_refuted` [0], `nmea_reads` [0]

### C91 Pipeline keywords select the documented component or switch (proved)



* `PipeProps.v`: `switches_resolved` [0], `components_resolved` [0]

### C92 Cloud and curve extensions build the diagram from the estimates (proved)



* `ExtProps.v`: `cloud_extension_points` [SE], `curve_extension` [SNE]

### C93 The conforming quality check works for every diagram (partial)

Total for diagrams defined at wind speed 0; refuted for every point cloud (ValueError at wind speed 0), and the reported local difference is the mean over the winds instead of the documented maximum.

* `QAProps.v`: `conforming_check_total_partial` [SE], `conforming_check_refuted` [SE]

### C94 Removing and adding the wind angle correction fit together (partial)

Add after remove refers to the recorded angle; the second half is false: both methods would need opposite signs, the recorded speeds are not reproduced.

* `InfluenceProps.v`: `wac_add_undoes_remove` [SNEC], `wac_recorded_speeds_refuted` [SNEC]

### C95 WindAngleCorrectingInfluenceModel.fit finds the emptiest wind angle (partial)

True for distances on the line from 0 to 360; on the circle false: the kernel uses abs(wa - other) % 360, so 359 and 0 are far apart.

* `InfluenceProps.v`: `fit_smallest_density_partial` [SNE], `fit_circle_refuted` [SNEC]

### C96 NetCDFWeatherModel reads the file at the right indices (partial)

Indices and data proved; the time axis only for whole hours or seconds: int(plain_time) drops fractions. The interpolated weather is proved for points whose coordinates are no grid values or the first ones.

* `WeatherProps.v`: `netcdf_indices` [SE], `netcdf_data` [SE], `netcdf_times_partial` [SE], `netcdf_times_refuted` [SE]
* `WeatherText.v`: `netcdf_names` [SE], `netcdf_weather_partial` [SE]

### C97 FlatMercatorProjection is centred at virt_zero (partial)

True for the defaults; refuted in general: the matrix is used where its inverse is needed.

* `GlobeProps.v`: `mercator_origin_default` [SNEC], `mercator_origin_refuted` [SNEC]

### C98 Both globe models agree along the equator (partial)

True while the longitudes differ by at most 180 degrees; refuted across the 180th meridian.

* `GlobeProps.v`: `globes_agree_on_equator_partial` [SNEC], `globes_agree_on_equator_refuted` [SNEC]

### C99 convex_direction is optimal (proved)

Optimal among all convex combinations of recorded velocities, given the contract of the hull algorithm; the single-direction answer is covered by C75.

* `ConvexProps.v`: `convex_direction_optimal` [SNE]

### C100 cruise treats the wind direction as an angle (partial)

Refuted: the angle in degrees is used in cos and sin.

* `CruiseProps.v`: `cruise_wind_period_refuted` [SNEC]

### C101 cost_cruise adds absolute costs and the integral of the density (proved)

For every solver of the differential equation that keeps its contract.

* `IsochroneProps.v`: `cost_constant_density` [SNEC], `cost_monotone` [SNEC], `cost_additive` [SNEC], `cost_constant_speed` [SNEC], `cost_on_line` [SNEC]

### C102 The true wind angle is the angle between bow and wind (partial)

Exact value for every wind; head wind gives angle 0 only on the courses 45 and 225.

* `CruiseProps.v`: `uvgrid_to_tw_value` [SNEC], `uvgrid_to_tw_partial` [SNEC], `uvgrid_head_wind_refuted` [SNEC], `uvgrid_head_wind_iff` [SNEC]

### C103 _right_handing_course is the initial course of the great circle (partial)

True from the equator eastwards; refuted otherwise.

* `CourseProps.v`: `course_equator_partial` [SNEC], `course_north_refuted` [SNEC], `course_west_refuted` [SNEC], `course_west_equator_refuted` [SNEC]

### C104 _great_earth_ellipsoid_distance is a distance (partial)

Symmetric; nan for equal points; right on the equator up to pi degrees, wrong beyond. Along a meridian the exact value is given; it is wrong by up to 28 percent because only one of the angles is converted to radians.

* `CourseProps.v`: `distance_symmetric` [SNEC], `distance_self_refuted` [SNEC], `distance_equator_partial` [SNEC], `distance_meridian_partial` [SNEC], `distance_equator_refuted` [SNEC], `distance_meridian_refuted` [SNEC], `distance_period_refuted` [SNEC]

### C105 The wind formats of cruise agree (partial)

Refuted: the directions are always opposite.

* `CruiseProps.v`: `wind_formats_opposite` [SNEC], `wind_formats_refuted` [SNEC]

### C106 cruise leaves influence_data unchanged (partial)

Exact state after the call; refuted with an influence model, true without.

* `CourseProps.v`: `cruise_influence_data` [SNEC], `cruise_influence_data_refuted` [SNEC], `cruise_influence_data_unused` [SNEC]

### C107 Weather with the documented keys suffices (partial)

Refuted: KeyError without UGRID.

* `IsochroneProps.v`: `weather_keys_refuted` [SNEC]

### C108 convex_direction reports impossible directions (partial)

Whenever the ValueError is raised, the direction is indeed impossible. The converse is false: convex_direction_opposite_refuted gives a slice for which the function answers although no way can be made.

* `ConvexProps.v`: `convex_direction_error_partial` [SNE], `convex_direction_opposite_refuted` [SNE]

### C109 cruise chooses the directions for the influenced boat speeds (partial)

Refuted: the directions never depend on the influence.

* `CourseProps.v`: `cruise_ignores_influence_refuted` [SNEC], `cruise_ignores_influence_example_refuted` [SNEC]

### C110 isochrone sails in the given direction (partial)

Refuted for all inputs: the roles of the coordinates are exchanged.

* `IsochroneProps.v`: `isochrone_north_refuted` [SNEC], `isochrone_east_refuted` [SNEC], `isochrone_north_example_refuted` [SNEC]

### C111 cost_cruise passes on the heading in degrees (partial)

Refuted: radians.

* `IsochroneProps.v`: `cost_heading_refuted` [SNEC]

### C112 The plotted convex hull consists of the corners with their own names (proved)

The hull algorithm is an arbitrary function. A division by zero (nan) in the estimate at 0 degrees is the only other outcome.

* `PlotProps.v`: `hull_plot` [SNE], `hull_plot_closed` [SNE]
* `PlotMoreProps.v`: `hull_plot_drawn` [SNE]

### C113 The point added at 0 degrees lies on the hull (partial)

True exactly for end points that are symmetric in their offset from the axis or level; the weights of the two points are exchanged.

* `PlotProps.v`: `wrap_estimate_exact` [SNE], `wrap_estimate_partial` [SNE], `wrap_estimate_refuted` [SNE]

### C114 Slices get the documented colours (partial)

Proved for pairs, lists and gradients of more than two slices; false for two colours and two slices, which are coloured in the order they are given.

* `PlotProps.v`: `paired_colors` [SE], `paired_colors_missing` [SE], `listed_colors` [SE], `gradient_colors` [SE], `two_colors_refuted` [SE]

### C115 A single colour is used for all slices (partial)

True for names and tuples whose first channel is an integer; false for tuples of floating point channels.

* `PlotProps.v`: `single_color_partial` [SE], `single_color_channels_partial` [SE], `single_color_refuted` [SE]

### C116 Surface plots leave out exactly the flat and the crossing triangles (partial)

Drawn triangles are steep and do not cross the upper half axis; the converse holds for triangles to the right of the axis that are steep at the first corner. False in general and depending on the order of the corners: the third condition is passed to numpy as the output array.

* `PlotProps.v`: `surface_partial` [SE], `surface_point` [SNE], `surface_refuted` [SE]
* `PlotMoreProps.v`: `surface_exact` [SE]

### C117 The text of a table shows the boat speeds below their wind speeds (partial)

Proved up to 15 wind speeds. False for more: the last five listed wind speeds head the columns of the sixth to tenth wind speed (for all such tables, with a witness).

* `StrProps.v`: `table_text_partial` [0], `printed_number` [SE], `small_fits` [SE], `table_text_long_refuted` [0], `table_text_refuted` [0]

### C118 The texts of point clouds and diagrams with several sails are complete (proved)

Numbers of more than three digits before the point would shift the columns.

* `StrProps.v`: `cloud_text` [SE], `multi_text` [0]

### C119 The text of a fuzzy statement tells which statement it is (partial)

Equal texts mean equal truth functions for expressions without x(s) and with plain keys; texts without items of compound statements read back. False otherwise: the sharpness x(s) is not printed, and (a & b)[k] prints as (a) & (b)[k], which Python reads as a & (b[k]).

* `FuzzyTextProps.v`: `fuzzy_text_faithful_partial` [SNE], `fuzzy_text_reads_back_partial` [SNE], `fuzzy_item_text_refuted` [SNE], `fuzzy_text_sharpness_refuted` [SNEC]

### C120 The legend of a plot tells the colours of the slices (partial)

Holds for gradients and when there is a colour for every slice; entries are always right for sequences and pairs of different wind speeds. False otherwise: slices drawn in the default blue are missing, a single colour is taken letter by letter ("red" is an error, "r" lists the first slice only).

* `LegendProps.v`: `legend_listed` [SE], `legend_listed_complete_partial` [SE], `legend_pairs_partial` [SE], `legend_gradient` [SE], `legend_listed_refuted` [SE], `legend_single_refuted` [SE]

### C121 Weather fetched from meteostat is stored at its place and hour (partial)

Proved if all places with data have the same hours and the last place has data; places without data get zeros. False otherwise: the hours of the last place are taken for all (none if it has no data), different numbers of hours are a ValueError.

* `MeteoProps.v`: `meteostat_partial` [S], `meteostat_gap_refuted` [S], `meteostat_hours_refuted` [SE], `meteostat_last_refuted` [SE]

### C122 The axes of a point cloud (proved)

For all clouds over the reals.

* `CloudProps.v`: `cloud_axes_exact` [SE]

### C123 Colour gradient plots show the boat speed of every point (partial)

Proved for two colours and boat speeds that are not all equal, the legend for more than two points. False for a single colour, for more than two colours (the others are ignored), for equal boat speeds and for the legend of two points.

* `GradientProps.v`: `gradient_scatter_partial` [SE], `gradient_scatter_legend_partial` [SE], `gradient_scatter_single_refuted` [SE], `gradient_scatter_many_refuted` [SE], `gradient_scatter_equal_refuted` [SE], `gradient_legend_refuted` [SE]

### C124 Default points lie on the diagram (partial)

Proved for tables and curves. For clouds it holds when the winds are positive and different, false for repeated winds and for wind speed 0. With several sails the diagram is at least as fast as each default point, not always equal.

* `DefaultsProps.v`: `table_default_points` [SE], `curve_default_points_grid` [SNE], `cloud_default_points_partial` [SE], `cloud_default_points_refuted` [SE], `multi_default_points_partial` [SE], `multi_default_points_refuted` [SE]

### C125 Default slices span the wind speeds (partial)

The wind speeds are proved. The slices cover the cloud if its wind speeds spread over at most 38; a witness shows a point in no slice otherwise.

* `DefaultsProps.v`: `default_slices_values` [SE], `multi_default_slices_values` [SE], `cloud_default_slices_cover_partial` [SE], `cloud_default_slices_cover_refuted` [SE]

### C126 Interpolated slices of a point cloud (partial)

The boat speeds are those of the evenly spaced angles, but the slice is one column of boat speeds and never has three rows.

* `DefaultsProps.v`: `cloud_interp_slices_partial` [SE], `cloud_interp_slices_refuted` [SE]

### C127 Interpolators reject non-positive parameters (proved)



* `InterpProps.v`: `interpolator_parameters` [SE]

### C128 Gradient colours are valid colours in floating point (proved)

Rounding by the operator of Flocq. Overflow of the difference of the extremes is left out.

* `FloatUnit.v`: `float_gradient_coefficients` [SNEC], `float_gradient_colors` [SNEC]

### C129 Normalised weights stay in [0,1] in floating point (proved)

Rounding by the operator of Flocq.

* `FloatUnit.v`: `float_normalize` [SNEC], `float_mean_weights` [SNEC]

### C130 Fuzzy logic in floating point (partial)

Range and De Morgan proved. Negating twice may change the truth value by 2^-53; a truth value of 2^-60 becomes 0.

* `FloatUnit.v`: `float_sigmoid` [SNEC], `float_fuzzy_laws` [SNEC], `float_double_negation_partial` [SNEC], `float_double_negation_refuted` [SNEC]

### C131 Step sizes list the multiples below the maximum in floating point (partial)

Proved for whole steps. False for others: the step 5/11 yields the wind angle 360, the step 0.16 the wind speed 40, and with the step 0.3 the multiple 1200 * 0.3 below 360 is missing. The computation of numpy.arange is part of the model.

* `FloatSteps.v`: `float_steps_partial` [SNEC], `float_steps_refuted` [SNEC]

### C132 The functions of one variable compute the documented formulas (proved)

Real arithmetic; exponentials and powers are those of the reals.

* `ModelFunProps.v`: `functions_of_one_variable` [SNE], `functions_too_few` [SNEC], `gompertz_grows` [SNEC], `gompertz_powers` [SNEC]

### C133 Files have their layout and are read back whatever characters they contain (proved)

Texts are sequences of bytes; writer and reader of Python's csv module are modelled character by character. The layout theorem is for numbers and names without delimiters. The docstring of PolarDiagramTable.to_csv gives the labels with colons (TWS:, TWA:, Boat speeds:), the files have TWS, TWA, BSP. The theorem about typed files is for fields without delimiters, quotes and line ends.

* `CsvTextProps.v`: `csv_text_round_trip` [0], `diagram_text_round_trip` [SE], `table_extern_text_round_trip` [SE], `multi_text_round_trip` [SE], `file_layout` [SE]
* `ArrayTextProps.v`: `array_fields_written` [0], `table_array_text_round_trip` [SE]
* `CsvLines.v`: `csv_text_line_ends` [0], `csv_text_limit` [0]
* `ArrayLines.v`: `array_text_lines` [0]

### C134 A plot has one line per wind speed, through the points of its slice, in the documented colour (proved)

Two colours for at most two slices are taken in turn (C114). For several sails see whole_plot_sails_partial in C80. The convex hull of scipy is a parameter, which may fail.

* `PlotAllProps.v`: `whole_plot` [SNE]
* `PlotHull.v`: `whole_plot_hull` [SNE], `whole_plot_refused` [SNE]

### C135 Deleting columns removes exactly those columns (proved)



* `DataKeyProps.v`: `delete_columns` [0]

### C136 The spiral samplers start from the documented spirals (proved)



* `SamplerProps.v`: `spiral_points` [SNE]

### C137 A default run of the pipeline yields a polar table of the recorded speeds (proved)

Runs that return; weighers, filters, handlers and quality checks are arbitrary functions with state. Rows with None or nan in a used column make the model of numpy raise.

* `WholeProps.v`: `default_pipeline_table` [SNEC]

### C138 Data.rows yields the rows in order, in the requested type (partial)

dict and list proved; tuples are right when read at once (as the weather expander does) and wrong when collected; iterators as keys are wrong.

* `RowsProps.v`: `rows_in_order` [0], `rows_tuple_partial` [0], `rows_tuple_loop` [0], `rows_tuple_refuted` [0], `rows_iterator_refuted` [0], `rows_other_type` [0]

### C139 Three-dimensional scatter of a polar diagram (partial)

Place and colour are proved for every number of colours from two on. space_scatter_refuted: the documented agreement with HROColorGradient.scatter is false, points with the same wind speed get the same colour in 3D. space_scatter_single_refuted: one colour raises ValueError.

* `SpaceProps.v`: `space_scatter_points` [SNE], `space_scatter_refuted` [SNE], `space_scatter_single_refuted` [SNE]

### C140 A new pipeline with default components returns a table for every usable set of recordings (proved)

Over the reals. Statistics of the weighers and filters are left out of the model, handler and quality assurance are arbitrary. different_columns_refuted shows that the condition of equal columns is needed: the weigher keeps the norm made for the first field.

* `FullProps.v`: `standard_pipeline_table` [SNEC], `different_columns_refuted` [SNEC]

### C141 Malformed inputs raise the documented or at least a fixed kind of exception (proved)



* `RefuseProps.v`: `table_items_refused` [SE], `delete_missing` [0], `csv_row_too_long` [0], `csv_empty_refused` [0], `array_refused` [0], `nmea_time_refused` [0], `one_weight_refused` [0], `curve_file_refused` [S], `sails_refused` [0], `mixed_wind_refused` [SNEC], `weather_file_refused` [0], `weigher_refused` [SNE], `smooth_refused` [SE]

### C142 Tables of other programs are read cell by cell (proved)

Numbers are read by a parameter standing for literal_eval.

* `ExternProps.v`: `foreign_table` [SE]

### C143 Representations of components are calls that make them again (partial)

Proved for the listed components; refuted for default mean weighers and unnamed norms, weighers with dimensions, cuboids, Shepard interpolators, ellipsoids and curves. Printing and reading of numbers are parameters.

* `ReprProps.v`: `repr_rebuilds_partial` [SE], `repr_default_weigher_refuted` [0], `repr_dimensions_refuted` [SE], `repr_keywords_refuted` [SE], `repr_ellipsoid_refuted` [SE], `repr_curve_refuted` [0]

### C144 Interpolated boat speeds stay within the stored speeds in floating point (partial)

Proved up to a relative error of 2 n 2^-53 for n points (exact for one point). Without that error false: two points of boat speed 1 at the distances 1 and 21 give 1 + 2^-52 in every order; np.average with weights near 2^-1074 may return 0. Overflow is not modelled.

* `FloatAverage.v`: `float_mean_range` [SNEC], `float_idw_range` [SNEC], `float_mean_single` [SNEC], `float_idw_overshoot_refuted` [SNEC], `float_average_range` [SNEC], `float_average_tiny_refuted` [SNEC]

### C145 Data objects own their columns (partial)

Proved for all programs of append, update, concatenate, from_dictionary, row selection, fill, delete, rename, strip and extend of existing columns. False for extend with a new key, which stores the list of the caller, and for slices of columns, which hold the lists of the object; the refutations say in general what happens then. Updating an object with itself is covered when its columns have equal lengths, as they have after every update.

* `SharedProps.v`: `value_semantics` [0], `caller_lists_kept` [0], `extend_keeps_the_list_refuted` [0], `extend_copies_refuted` [0], `columns_independent_refuted` [0], `slice_reads` [0], `slice_copies_refuted` [0], `self_update_doubles` [0]

### C146 NMEA sentences are merged into rows without losing values (proved)

nmea_rows gives every column of the table before the keys are standardised; nmea_table the result of the whole handler when no attribute is a date (dates are combined with times, C14).

* `NmeaRowsProps.v`: `log_rows_keep_values` [0], `nmea_rows` [0], `nmea_table` [0], `nmea_mixed_refused` [0], `nmea_kept_types` [0]

### C147 Smoothing in floating point (partial)

The range is left by at most four units in the last place, the first value is exact. A constant column does not stay constant: 6.1 recorded at 0, 1 and 20 seconds becomes 6.1 + 2^-50. Overflow is not modelled.

* `FloatSmooth.v`: `float_smooth_range` [SNEC], `float_smooth_constant_refuted` [SNEC]

### C148 Gridded weather in floating point (partial)

The error is at most 40 units in the last place of the largest value for points without grid values other than the first (see C69); at grid points nothing is rounded. The range is left: wind that is 6.1 everywhere is 6.1 + 2^-50 in between. Overflow is not modelled.

* `FloatWeather.v`: `float_weather_partial` [SNEC], `float_weather_grid_point` [SNEC], `float_weather_range_refuted` [SNEC]

### C149 The quantile filter with rounded numbers (partial)

np.percentile is modelled with linear interpolation in the two-sided form of numpy; overflow and nan are left out. The documented 'less than the given percentage' is refuted with a witness.

* `FloatQuantile.v`: `float_quantile_keeps` [SNEC], `float_quantile_removes_partial` [SNEC], `float_quantile_removes_refuted` [SNEC]

### C150 Symmetrised diagrams in floating point (partial)

Mirroring twice gives the angle back exactly if 360 - wa is a binary64 number, in particular from 180 degrees on and for multiples of 2^-44 degrees; the curve is exactly symmetric there. Refuted for 0.1 degrees. From the second symmetrisation on no new points appear.

* `FloatMirror.v`: `float_mirror_twice` [SNEC], `float_mirror_exact_angles` [SNEC], `float_symmetrize_mirrors` [SNEC], `float_symmetrize_settles` [SNEC], `float_symmetrize_twice_refuted` [SNEC], `float_curve_symmetric_partial` [SNEC], `float_curve_symmetric_refuted` [SNEC], `float_cloud_points` [SNEC], `float_curve_reduces` [SNEC]

### C151 The text of a Data object tells its content (partial)

Texts are equal exactly if keys, classes and all columns of less than ten entries are equal and longer columns agree in the first and last five entries, for entries whose texts are distinct and have no commas or line breaks. False for longer columns and for texts with commas in long columns.

* `DataTextProps.v`: `data_text_tells` [0], `data_text_long_refuted` [0], `data_text_commas_refuted` [0], `data_text_untyped` [0]

### C152 Calls leave the arrays handed to them alone (partial)

Diagrams and answers are those of the program with copies, provided that no array is used both as wind speeds and as wind angles (false otherwise). The arrays themselves are changed: arrays of angles are brought into the range from 0 to 360, even if the call fails; nothing else ever happens to them, and exactly when it happens is proved.

* `ArgsProps.v`: `diagrams_do_not_share` [SNEC], `arguments_only_reduced` [SNEC], `calls_change_one_diagram` [SNEC], `arguments_kept_partial` [SNEC], `new_table_writes` [SNEC], `item_writes` [SNEC], `points_write` [SNEC], `arguments_kept_refuted` [SNEC], `shared_roles_refuted` [SNEC], `same_array_twice` [SNEC]

### C153 Items of tables under shifted angles in floating point (partial)

Entries are found under the angle under which they were entered and under every number with the same remainder; under shifted angles exactly if the shift needs no rounding (an entry at 0.1 is not found at 360.1). A tiny negative angle is listed as 360 and not found there.

* `FloatTable.v`: `float_turns` [SNEC], `float_turns_grid` [SNEC], `float_entered_found` [SNEC], `float_item_turns_partial` [SNEC], `float_item_turns_refuted` [SNEC], `float_listed_found` [SNEC], `float_listed_found_refuted` [SNEC]

### C154 Evenly spaced winds in floating point (partial)

Order, ends, containment and the distance to an even division (20 units of rounding of the larger end) are proved; entries are different if their distance exceeds 40 units of rounding, and not between neighbouring doubles (refuted).

* `FloatSpace.v`: `float_linspace_ordered` [SNEC], `float_linspace_near` [SNEC], `float_linspace_distinct_partial` [SNEC], `float_linspace_distinct_refuted` [SNEC], `float_windspeeds` [SNEC]

### C155 Smoothed values near jumps (proved)

Exact arithmetic. smooth_exact gives the value of every row of a run and of the last row; rows_in_runs shows that these are all rows.

* `SmoothExact.v`: `smooth_exact` [SE], `rows_in_runs` [SE], `blend_meets` [SE]

### C156 Statistics returned by a pipeline describe its run and stay as they are (partial)

Never changed and equal to the copying program: proved. Independent of the past: proved if every component sets statistics in all calls or in none, or, for influence models, in fit only; false for all influence models that set them in remove_influence but not in fit, whose former statistics override the new ones. Entries of the caller: separate if every call sets statistics and there are test data, otherwise false (smoothers, test statistics without test data, influence models).

* `StatsProps.v`: `statistics_as_values` [0], `statistics_stay` [0], `statistics_of_run` [0], `statistics_stale` [0], `statistics_stale_refuted` [0], `statistics_new` [0], `statistics_shared_refuted` [0]

### C157 The text of a direction tells angle, share and sail (partial)

Exact: the texts are equal if and only if the angles, the rounded products proportion * 100 and the sails are equal, where an empty name counts as no sail. Hence shares with equal texts differ by at most 2^-52; false for neighbouring shares such as 3/4 + 6/2^53 and 3/4 + 7/2^53 and for empty names.

* `DirTextProps.v`: `direction_text_tells` [SNEC], `direction_text_share` [SNEC], `direction_text_refuted` [SNEC]

### C158 Smoothed values of rows with equal time stamps (proved)

Exact arithmetic. smooth_ties gives the value of every row whose time stamp first occurs in a run; rows_first shows that these are all rows.

* `SmoothTies.v`: `smooth_same_time` [SE], `smooth_ties` [SE], `rows_first` [SE]

### C159 Symmetrised tables in floating point (partial)

The entries are proved for all tables, reading the original entries at both angles if the computed mirror images differ from each other and from the other angles, reading all entries if moreover 360 - wa needs no rounding. False otherwise: an entry at 0.1 degrees appears at 359.9 degrees but not at 360 - 359.9; angles with the same rounded mirror image (0 and 2^-46) cannot be read there any more.

* `FloatTableSym.v`: `float_table_mirrors` [SNEC], `float_table_symmetric` [SNEC], `float_table_symmetric_partial` [SNEC], `float_table_symmetric_refuted` [SNEC], `float_table_merged` [SNEC], `float_table_merged_refuted` [SNEC]

### C160 Mean weigher in floating point (partial)

The range holds without restriction. The weight 1 is proved if the boat speed can be added up without rounding, in particular in cylinders with at most two points; it is false in general: three measurements of 6.1 knots at the same wind all get the weight 0, because the rounding error of the mean is divided by a standard deviation that is the same rounding error. Overflow, nan and the sign of zero are not modelled.

* `FloatWeigh.v`: `float_weigh_range` [SNEC], `float_weigh_steady_partial` [SNEC], `float_weigh_steady_refuted` [SNEC]

### C161 Fluctuation weigher in floating point (partial)

The first three claims hold as stated. The weight 1 for unchanged attributes is proved if the values can be added up without rounding, in particular in windows with at most two rows; it is false in general: three values 6.1 with the upper bound 1 give the weight 1 - 2^-50. The windows themselves are found by exact comparison of time stamps and are given here. Overflow, nan and the sign of zero are not modelled.

* `FloatFluct.v`: `float_fluct_range` [SNEC], `float_fluct_zero` [SNEC], `float_fluct_monotone` [SNEC], `float_fluct_steady_partial` [SNEC], `float_fluct_steady_refuted` [SNEC]

### C162 Optimal directions with an influence model (proved)

The hull is any function of the points (scipy is not modelled); the influence model is represented by the outcome of add_influence.

* `ConvexInfluence.v`: `convex_first_slice` [SNE], `convex_influence_replaces` [SNE], `convex_influence_circle` [SNE], `convex_influence_refused` [SNE]

### C163 Member weigher in floating point (proved)

Which points are in a cylinder is decided by the rounded differences and any norm. Overflow, nan and the sign of zero are not modelled.

* `FloatMember.v`: `float_member_weights` [SNEC]

### C164 Interpolated time stamps in floating point (proved)

Fractions and products rounded as by Python: quotient to binary64, timedelta product to microseconds, ties to even. That the stamp is the nearest one to the exact line is refuted by a gap of 9 microseconds over six rows.

* `FloatTimes.v`: `float_times` [SNEC], `float_times_exact` [SNEC], `float_times_nearest_refuted` [SNEC]

### C165 Positions in time given to the fill functions in floating point (proved)

One row at a time; the rows do not influence each other since only measured values are used.

* `FloatFill.v`: `float_fill` [SNEC], `float_fill_measured` [SNEC], `float_fill_order` [SNEC]

### C166 Sails of the optimal directions (proved)

The hull is a parameter; only that its vertices are indices of points is assumed.

* `ConvexSails.v`: `convex_sails` [SNE]

### C167 NMEA positions in floating point (proved)

The text of the number is read correctly rounded. Hemispheres are not part of the decoded text (see C58).

* `FloatNmea.v`: `float_nmea` [SNEC], `float_nmea_monotone` [SNEC]

### C168 Error figures in floating point (proved)

The last sentence is the refutation of the expected order of the figures.

* `FloatQA.v`: `float_qa` [SNEC], `float_qa_exact` [SNEC], `float_qa_average_refuted` [SNEC]

### C169 Statistics of data handlers (proved)

Data objects of the handlers are well formed by the theorems on the handlers (array_columns_kept, csv_columns_kept).

* `HandlerRest.v`: `handler_counts` [0]

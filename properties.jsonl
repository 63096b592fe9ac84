{"id": "C01", "title": "True -> apparent -> true wind is the identity", "statement": "For a record (wind speed, wind angle, boat speed) of true wind with positive wind speed whose apparent wind speed is not zero, convert_true_wind_to_apparent followed by convert_apparent_wind_to_true returns the same wind speed, the same wind angle reduced to [0,360) and the same boat speed.", "quantifier": "every wind speed > 0, every real wind angle, every boat speed whose apparent wind does not vanish", "why_tests_cant": "The claim ranges over infinitely many real inputs; a test fixes finitely many.", "anchors": ["hrosailing/core/computing.py: _Wind.convert_wind, convert_true_wind_to_apparent, convert_apparent_wind_to_true"]}
{"id": "C02", "title": "Apparent -> true -> apparent wind is the identity", "statement": "For a record of apparent wind with positive wind speed whose true wind speed is not zero, convert_apparent_wind_to_true followed by convert_true_wind_to_apparent returns the same record with the angle reduced to [0,360).", "quantifier": "every wind speed > 0, every real wind angle, every boat speed whose true wind does not vanish", "why_tests_cant": "The claim ranges over infinitely many real inputs; a test fixes finitely many.", "anchors": ["hrosailing/core/computing.py: _Wind.convert_wind"]}
{"id": "C03", "title": "Wind conversion is vector addition", "statement": "The converted wind, read as a plane vector in boat coordinates, equals the given wind vector plus (true to apparent) or minus (apparent to true) the boat speed along the bow; the converted speed is non-negative and the converted angle lies in [0,360].", "quantifier": "all wind speeds >= 0, all angles, all boat speeds with non-vanishing result", "why_tests_cant": "The claim ranges over infinitely many real inputs; a test fixes finitely many.", "anchors": ["hrosailing/core/computing.py: _Wind.convert_wind"]}
{"id": "C04", "title": "Wind conversion is row-wise and validates its input", "statement": "Conversion returns one row per input row in the same order, keeps the boat speed column, does not let rows influence each other, and raises TypeError exactly when the array does not have three columns or some wind speed is negative.", "quantifier": "all arrays of any number of rows and any row widths", "why_tests_cant": "Number of rows and row contents are unbounded.", "anchors": ["hrosailing/core/computing.py: _Wind.convert_wind"]}
{"id": "C05", "title": "Wind conversion leaves the caller's array alone", "statement": "Calling convert_true_wind_to_apparent or convert_apparent_wind_to_true does not change the array handed in.", "quantifier": "all input arrays", "why_tests_cant": "A test that happens to use angles in [0,360) never sees the write.", "anchors": ["hrosailing/core/computing.py: _Wind.convert_wind"]}
{"id": "C06", "title": "The standard distance is a norm", "statement": "The attribute-scaled euclidean norm used by default for two and three attributes is non-negative, zero only at the origin, absolutely homogeneous and satisfies the triangle inequality; other attribute counts raise NotImplementedError.", "quantifier": "all vectors and scalars", "why_tests_cant": "The claim ranges over infinitely many real inputs; a test fixes finitely many.", "anchors": ["hrosailing/core/computing.py: scaled_euclidean_norm, hrosailing_standard_scaled_euclidean_norm"]}
{"id": "C07", "title": "Data.update appends rows", "statement": "Updating a rectangular Data object with a dictionary of columns of equal length m succeeds or raises; on success every column has the same length, n_rows grows by exactly m, every old entry is unchanged, the new rows hold exactly the given entries, and every cell not covered is None.", "quantifier": "all reachable Data objects and all update dictionaries, hence all histories of updates", "why_tests_cant": "Histories of updates of unbounded length and arbitrary column sets.", "anchors": ["hrosailing/core/data.py: Data.update, Data.extend, Data.fill, Data._unsafe_update"]}
{"id": "C08", "title": "Data.concatenate stacks rows", "statement": "Concatenating a list of Data objects gives an object whose rows are the rows of the inputs in order (missing columns read None), whose row count is the sum of the row counts and whose columns are the union of the columns.", "quantifier": "all lists of Data objects of consistent column types", "why_tests_cant": "Number of objects, rows and columns are unbounded.", "anchors": ["hrosailing/core/data.py: Data.concatenate"]}
{"id": "C09", "title": "Columns stay type homogeneous", "statement": "After any sequence of append, extend, update, rename, delete, fill, strip and filter operations, every column holds only None and values of a single type, and the recorded type of the column is that type.", "quantifier": "all operation histories", "why_tests_cant": "Needs an invariant over all histories.", "anchors": ["hrosailing/core/data.py: Data.extend, Data.update, Data.fill, Data.rename, Data.delete, Data.filter_types, Data._get_type"]}
{"id": "C10", "title": "A rejected write leaves Data unchanged", "statement": "If extend or update raises, the Data object is observably the same as before the call (columns, lengths, n_rows).", "quantifier": "all states and all inputs that raise", "why_tests_cant": "All failure points of all inputs.", "anchors": ["hrosailing/core/data.py: Data.extend, Data.update"]}
{"id": "C11", "title": "Deleting rows removes exactly those rows", "statement": "Data.delete with a list of row indices removes exactly the rows with these indices, keeps the order of the others, and n_rows equals the number of remaining rows.", "quantifier": "all rectangular Data objects and all index lists", "why_tests_cant": "All index lists, including repeated and out of range indices.", "anchors": ["hrosailing/core/data.py: Data.delete"]}
{"id": "C12", "title": "strip removes only empty parts", "statement": "Data.strip('cols') removes exactly the columns that hold only None; strip('rows') removes exactly the leading and trailing rows that hold only None; afterwards n_rows is the number of rows; the call terminates.", "quantifier": "all rectangular Data objects", "why_tests_cant": "Includes the termination claim for every input.", "anchors": ["hrosailing/core/data.py: Data.strip"]}
{"id": "C13", "title": "rename only changes the key", "statement": "Renaming a column keeps its entries and type and every other column; an already used new key raises ValueError and changes nothing.", "quantifier": "all Data objects and key pairs", "why_tests_cant": "All objects and keys.", "anchors": ["hrosailing/core/data.py: Data.rename"]}
{"id": "C14", "title": "Key standardisation loses nothing and is stable", "statement": "hrosailing_standard_format terminates, keeps the multiset of columns (only keys change, plus an added datetime column), never merges two columns, and standardising a key twice gives the same key as once.", "quantifier": "all Data objects and all key strings", "why_tests_cant": "All strings and all collisions.", "anchors": ["hrosailing/core/data.py: Data.hrosailing_standard_format"]}
{"id": "C15", "title": "Row masks, column slices and row indexing agree", "statement": "data[mask] keeps exactly the rows whose mask entry is true, in order; data[[keys]] keeps exactly the named columns; data[i] is the dictionary of the i-th entries; data['key'] is the column; a column slice of a row selection equals the row selection of the column slice.", "quantifier": "all Data objects, masks, key lists and indices", "why_tests_cant": "All masks and shapes.", "anchors": ["hrosailing/core/data.py: Data.get_slice, Data._mask_rows, Data.__getitem__"]}
{"id": "C16", "title": "WeightedPoints keeps points and weights aligned", "statement": "Constructing, masking and extending weighted points keeps the i-th weight with the i-th point, a scalar weight is used for every point, and a length mismatch raises.", "quantifier": "all point lists, weight lists and masks", "why_tests_cant": "All lengths.", "anchors": ["hrosailing/core/data.py: WeightedPoints"]}
{"id": "C17", "title": "A table returns the entry it was given", "statement": "A PolarDiagramTable built from distinct wind speeds, wind angles distinct modulo 360 (in any order) and a boat speed array of matching shape returns, for the j-th given wind speed and the i-th given wind angle plus any multiple of 360, exactly the given entry (i, j), both by item access and by calling the table; item access for other winds raises ValueError.", "quantifier": "all resolutions, orders, shapes and entries", "why_tests_cant": "All permutations and sizes.", "anchors": ["hrosailing/polardiagram/_polardiagramtable.py: PolarDiagramTable.__init__, __getitem__, __call__, _sort_table"]}
{"id": "C18", "title": "Table resolutions are sorted and normalised", "statement": "After construction the wind speeds are non-negative and ascending and the wind angles lie in [0,360) and are ascending, whatever the input; a negative wind speed raises ValueError; a single number is a step size and gives its multiples strictly between 0 and the maximum; an empty resolution raises ValueError.", "quantifier": "all accepted resolutions", "why_tests_cant": "The claim ranges over infinitely many real inputs; a test fixes finitely many.", "anchors": ["hrosailing/polardiagram/_polardiagramtable.py: _Resolution_helper"]}
{"id": "C19", "title": "change_entries changes exactly the selected cells", "statement": "change_entries(new, ws, wa) raises ValueError and changes nothing when the shape does not fit or a wind is not in the table; otherwise cell (ws[j], wa[i]) becomes new[i][j] and all other cells keep their value.", "quantifier": "all tables, selections and new values", "why_tests_cant": "All selections in all orders.", "anchors": ["hrosailing/polardiagram/_polardiagramtable.py: PolarDiagramTable.change_entries"]}
{"id": "C20", "title": "symmetrize makes a table symmetric and keeps its entries", "statement": "For a table whose wind angles are distinct and on one side, symmetrize returns a table with T(ws,wa)=T(ws,360-wa) for every listed wind, with the old entries unchanged and every angle listed once.", "quantifier": "all such tables", "why_tests_cant": "All tables, in particular those containing 0 or 180 degrees.", "anchors": ["hrosailing/polardiagram/_polardiagramtable.py: PolarDiagramTable.symmetrize"]}
{"id": "C21", "title": "Table CSV files round-trip", "statement": "Writing a table with to_csv and reading it back with from_csv in the same format (hro, array, orc, opencpn) gives a table with the same wind speeds, wind angles and boat speeds.", "quantifier": "all tables and all four formats", "why_tests_cant": "All sizes and entries.", "anchors": ["hrosailing/polardiagram/_polardiagramtable.py: PolarDiagramTable.to_csv, __from_csv__", "hrosailing/polardiagram/_reading.py: from_csv"]}
{"id": "C22", "title": "Interpolated table speeds stay within the used entries", "statement": "Calling a table at a wind that is not listed returns a value between the smallest and the largest table entry in the neighbourhood, when the neighbourhood contains an entry.", "quantifier": "all tables and all winds", "why_tests_cant": "The claim ranges over infinitely many real inputs; a test fixes finitely many.", "anchors": ["hrosailing/polardiagram/_polardiagramtable.py: PolarDiagramTable.__call__", "hrosailing/processing/interpolator.py: ArithmeticMeanInterpolator"]}
{"id": "C23", "title": "Table slices agree with the table", "statement": "A slice for a listed wind speed lists every wind angle with the entry of the table; a slice for another wind speed lists every wind angle with the value of calling the table; slices come in the order of the requested wind speeds.", "quantifier": "all tables and requested wind speeds", "why_tests_cant": "All sizes.", "anchors": ["hrosailing/polardiagram/_polardiagramtable.py: PolarDiagramTable.ws_to_slices"]}
{"id": "C24", "title": "A point cloud returns the points it was given", "statement": "For a cloud built from points with positive wind speed, calling it at a stored wind returns the boat speed of the first stored point with that wind; points with negative wind speed are dropped, all others are kept in order with the angle reduced to [0,360).", "quantifier": "all point arrays and winds", "why_tests_cant": "All arrays.", "anchors": ["hrosailing/polardiagram/_polardiagrampointcloud.py: PolarDiagramPointcloud.__init__, __call__"]}
{"id": "C25", "title": "add_points appends", "statement": "add_points keeps all old points, appends the new ones in order with angles reduced to [0,360), and raises without changing the cloud when a new wind speed is not positive.", "quantifier": "all clouds and new points", "why_tests_cant": "All histories of additions.", "anchors": ["hrosailing/polardiagram/_polardiagrampointcloud.py: PolarDiagramPointcloud.add_points"]}
{"id": "C26", "title": "Cloud symmetrisation mirrors every point", "statement": "symmetrize returns a cloud containing every point and its mirror image (ws, (360-wa) mod 360, bsp); the point set is closed under mirroring.", "quantifier": "all clouds", "why_tests_cant": "All clouds.", "anchors": ["hrosailing/polardiagram/_polardiagrampointcloud.py: PolarDiagramPointcloud.symmetrize"]}
{"id": "C27", "title": "Cloud CSV files round-trip", "statement": "Writing a non-empty cloud and reading it back gives the same points in the same order.", "quantifier": "all non-empty clouds", "why_tests_cant": "All contents.", "anchors": ["hrosailing/polardiagram/_polardiagrampointcloud.py: PolarDiagramPointcloud.to_csv, __from_csv__"]}
{"id": "C28", "title": "Interpolated cloud speeds stay within the stored speeds", "statement": "Calling a cloud with its default settings at a wind that is not stored returns a value between the smallest and the largest boat speed of the points in the neighbourhood.", "quantifier": "all clouds and winds", "why_tests_cant": "The claim ranges over infinitely many real inputs; a test fixes finitely many.", "anchors": ["hrosailing/polardiagram/_polardiagrampointcloud.py: PolarDiagramPointcloud.__call__"]}
{"id": "C29", "title": "Several sails: the best sail counts", "statement": "Calling a PolarDiagramMultiSails returns the maximum of the contained diagrams at that wind; every diagram gets a name: missing names are filled up, surplus names dropped, item access by name returns the first diagram of that name.", "quantifier": "all lists of diagrams and names", "why_tests_cant": "All lists.", "anchors": ["hrosailing/polardiagram/_polardiagrammultisails.py: PolarDiagramMultiSails.__init__, __call__, __getitem__"]}
{"id": "C30", "title": "Slice info names the sail of every point", "statement": "For every slice of a multi-sail diagram the info list has one entry per slice column and names the sail whose diagram produced this column.", "quantifier": "all multi-sail diagrams and wind speeds", "why_tests_cant": "All sizes.", "anchors": ["hrosailing/polardiagram/_polardiagrammultisails.py: ws_to_slices, get_slice_info"]}
{"id": "C31", "title": "Multi-sail files round-trip whatever else is written", "statement": "After writing a multi-sail diagram with to_csv to a path and later writing other diagrams to other paths, reading the first path gives the first diagram back with the same sails.", "quantifier": "all diagrams, sail names, paths and histories of writes", "why_tests_cant": "Histories of file writes.", "anchors": ["hrosailing/polardiagram/_polardiagrammultisails.py: to_csv, __from_csv__"]}
{"id": "C32", "title": "Curves are 360 degree periodic", "statement": "Calling a curve at (ws, wa) and (ws, wa + 360 k) gives the same boat speed for every integer k; a negative wind speed raises ValueError; a curve is only constructed when enough parameters are given.", "quantifier": "all model functions, parameters, winds and integers k", "why_tests_cant": "The claim ranges over infinitely many real inputs; a test fixes finitely many.", "anchors": ["hrosailing/polardiagram/_polardiagramcurve.py: PolarDiagramCurve.__init__, __call__"]}
{"id": "C33", "title": "Curve symmetrisation is symmetric", "statement": "The symmetrised curve satisfies c(ws, wa) = c(ws, 360 - wa) for every wind, it is the mean of the curve at both angles, and symmetrising twice changes nothing.", "quantifier": "all model functions, both settings of radians, all winds", "why_tests_cant": "The claim ranges over infinitely many real inputs; a test fixes finitely many.", "anchors": ["hrosailing/polardiagram/_polardiagramcurve.py: PolarDiagramCurve.symmetrize"]}
{"id": "C34", "title": "Curve CSV files round-trip", "statement": "Writing a curve with a library model function and reading it back gives the same function, parameters and radians flag.", "quantifier": "all parameters and flags", "why_tests_cant": "All contents.", "anchors": ["hrosailing/polardiagram/_polardiagramcurve.py: to_csv, __from_csv__"]}
{"id": "C35", "title": "Requested slices interpolate wind speeds evenly", "statement": "Requesting n_steps additional wind speeds between k given ones yields (k-1)(n_steps+1)+1 wind speeds, contains the given ones in order, and splits every gap into n_steps+1 equal parts; n_steps <= 0 raises ValueError.", "quantifier": "all wind speed lists and n_steps", "why_tests_cant": "All lengths.", "anchors": ["hrosailing/polardiagram/_basepolardiagram.py: PolarDiagram._get_windspeeds, get_slices"]}
{"id": "C36", "title": "Inverse distance interpolation reproduces and does not overshoot", "statement": "IDWInterpolator returns the boat speed of the first data point at distance zero, otherwise the weighted mean with weights distance^-p, a value between the smallest and largest boat speed, independent of the order of the points.", "quantifier": "all non-empty point lists and query points", "why_tests_cant": "The claim ranges over infinitely many real inputs; a test fixes finitely many.", "anchors": ["hrosailing/processing/interpolator.py: IDWInterpolator.interpolate"]}
{"id": "C37", "title": "Arithmetic mean interpolation is a weighted mean", "statement": "ArithmeticMeanInterpolator reproduces a data point at distance zero and otherwise returns s times the mean weighted by the distribution of the distances; with s = 1 and the default distribution the value lies between the smallest and the largest boat speed.", "quantifier": "all non-empty weighted point lists and query points", "why_tests_cant": "The claim ranges over infinitely many real inputs; a test fixes finitely many.", "anchors": ["hrosailing/processing/interpolator.py: ArithmeticMeanInterpolator.interpolate"]}
{"id": "C38", "title": "Improved inverse distance interpolation is defined and does not overshoot", "statement": "ImprovedIDWInterpolator returns for every non-empty point list a finite value between the smallest and largest boat speed.", "quantifier": "all non-empty point lists and query points", "why_tests_cant": "The claim ranges over infinitely many real inputs; a test fixes finitely many.", "anchors": ["hrosailing/processing/interpolator.py: ImprovedIDWInterpolator.interpolate, _set_weights"]}
{"id": "C39", "title": "Shepard interpolation uses direction cosines", "statement": "The direction terms of ShepardInterpolator are cosines of the angle between the directions from the query point to two data points, hence lie in [-1, 1]; a data point at the query is reproduced.", "quantifier": "all point lists and query points", "why_tests_cant": "The claim ranges over infinitely many real inputs; a test fixes finitely many.", "anchors": ["hrosailing/processing/interpolator.py: ShepardInterpolator.interpolate, _include_direction"]}
{"id": "C40", "title": "Bilinear interpolation is exact on bilinear data", "statement": "BilinearGridInterpolator returns the stored value at grid points, the exact value of every function a+bx+cy+dxy sampled on a complete grid, a value within the corner values of the cell, and raises outside the grid.", "quantifier": "all complete grids, functions and query points", "why_tests_cant": "The claim ranges over infinitely many real inputs; a test fixes finitely many.", "anchors": ["hrosailing/processing/interpolator.py: BilinearGridInterpolator"]}
{"id": "C41", "title": "Neighbourhood masks say exactly what they mean", "statement": "For Ball, Ellipsoid, Cuboid and Polytope the i-th mask entry is true exactly when the i-th point lies in the set described in the documentation; invalid parameters raise.", "quantifier": "all parameters and point lists", "why_tests_cant": "The claim ranges over infinitely many real inputs; a test fixes finitely many.", "anchors": ["hrosailing/processing/neighbourhood.py: Ball, Ellipsoid, Cuboid, Polytope"]}
{"id": "C42", "title": "ScalingBall finds its minimum number of points", "statement": "ScalingBall marks at least min_pts points whenever at least min_pts points are given, marks exactly the points not farther away than the min_pts-th nearest one, and reports an error otherwise.", "quantifier": "all point lists and min_pts", "why_tests_cant": "The claim ranges over infinitely many real inputs; a test fixes finitely many.", "anchors": ["hrosailing/processing/neighbourhood.py: ScalingBall"]}
{"id": "C43", "title": "QuantileFilter removes the lightest points and not too many", "statement": "QuantileFilter(percent) keeps at least one point, never removes a point that is at least as heavy as a kept one, and removes less than percent per cent of the points.", "quantifier": "all weight lists and percentages", "why_tests_cant": "The claim ranges over infinitely many real inputs; a test fixes finitely many.", "anchors": ["hrosailing/processing/filter.py: QuantileFilter.filter"]}
{"id": "C44", "title": "BoundFilter keeps exactly the points within the bounds", "statement": "BoundFilter marks a point exactly when lower <= weight <= upper, for every point in order; bounds in the wrong order are rejected at construction.", "quantifier": "all weight lists and bounds", "why_tests_cant": "The claim ranges over infinitely many real inputs; a test fixes finitely many.", "anchors": ["hrosailing/processing/filter.py: BoundFilter.filter"]}
{"id": "C45", "title": "CylindricMeanWeigher weights lie in [0,1]", "statement": "Every weight is in [0,1], some point has weight 0 unless all raw deviations vanish, and the weight falls with the normalised distance from the local mean.", "quantifier": "all non-empty point lists and radii", "why_tests_cant": "The claim ranges over infinitely many real inputs; a test fixes finitely many.", "anchors": ["hrosailing/processing/weigher.py: CylindricMeanWeigher.weigh"]}
{"id": "C46", "title": "CylindricMemberWeigher weights are normalised neighbour counts", "statement": "The weight of a point is the number of other points in its cylinder divided by the largest such number; all weights are in [0,1] and the largest is 1 unless no cylinder holds another point.", "quantifier": "all point lists and cylinder sizes", "why_tests_cant": "The claim ranges over infinitely many real inputs; a test fixes finitely many.", "anchors": ["hrosailing/processing/weigher.py: CylindricMemberWeigher.weigh"]}
{"id": "C47", "title": "FluctuationWeigher applies bound i to attribute i", "statement": "The weight is the product over the listed attributes of max(0, 1 - std/bound), where the bound is the one listed for this attribute and std is taken over the time window; the weight lies in [0,1].", "quantifier": "all data, windows, attribute orders and bounds", "why_tests_cant": "The claim ranges over infinitely many real inputs; a test fixes finitely many.", "anchors": ["hrosailing/processing/weigher.py: FluctuationWeigher.weigh"]}
{"id": "C48", "title": "Weigher arithmetic combines weights pointwise", "statement": "(a + b).weigh(points)[i] is a.weigh(points)[i] + b.weigh(points)[i], and likewise for -, *, /, powers, negation and numbers.", "quantifier": "all weighers and point lists of any length", "why_tests_cant": "All lengths; tests use no combined weigher at all.", "anchors": ["hrosailing/processing/weigher.py: Weigher.__add__, _UnaryMapWeigher, _BinaryMapWeigher"]}
{"id": "C49", "title": "A weigher can be used again", "statement": "Weighing the same data twice with the same weigher object gives the same result and leaves the user's attribute list unchanged.", "quantifier": "all weighers and histories of calls", "why_tests_cant": "Histories of calls.", "anchors": ["hrosailing/processing/weigher.py: CylindricMeanWeigher.weigh, CylindricMemberWeigher.weigh, _set_points_from_data"]}
{"id": "C50", "title": "Fuzzy expressions obey fuzzy logic", "statement": "Truth values stay in [0,1], & is the minimum, | the maximum, ~ the complement to 1, De Morgan's laws hold and x > a is the complement of x < a.", "quantifier": "all fuzzy expressions built from comparisons and connectives, all inputs", "why_tests_cant": "All expressions (structural induction).", "anchors": ["hrosailing/processing/weigher.py: FuzzyBool, FuzzyVariable"]}
{"id": "C51", "title": "A fuzzy comparison uses the requested sharpness", "statement": "A comparison written x(s) op a uses sharpness s throughout, a following comparison without (s) uses the default sharpness again.", "quantifier": "all sequences of comparisons", "why_tests_cant": "Histories of comparisons.", "anchors": ["hrosailing/processing/weigher.py: FuzzyVariable.__call__, sharpness, __eq__"]}
{"id": "C52", "title": "RemoveOnlyImputator keeps exactly the complete rows", "statement": "The result consists of exactly the rows without None in order; the statistic n_removed_rows is the number of removed rows.", "quantifier": "all data", "why_tests_cant": "All tables.", "anchors": ["hrosailing/processing/imputator.py: RemoveOnlyImputator.impute"]}
{"id": "C53", "title": "FillLocalImputator fills gaps and keeps measurements", "statement": "The result has no None, is rectangular, consists of rows of the input in order, keeps every measured value of the surviving rows, and fills a gap only from the nearest measured neighbours within the time limit; time stamps missing between two close time stamps are interpolated.", "quantifier": "all data and fill functions", "why_tests_cant": "All tables and gap patterns.", "anchors": ["hrosailing/processing/imputator.py: FillLocalImputator.impute"]}
{"id": "C54", "title": "AffineSmoother keeps the range of the signal", "statement": "For chronological data every smoothed value lies between the smallest and the largest value of the column, constant columns and non-float columns and the number of rows are unchanged; data that is not chronological raises ValueError.", "quantifier": "all data and time spans", "why_tests_cant": "The claim ranges over infinitely many real inputs; a test fixes finitely many.", "anchors": ["hrosailing/processing/smoother.py: AffineSmoother.smooth"]}
{"id": "C55", "title": "Samplers return the requested number of points inside the data", "statement": "If a sampler returns, it returns exactly n_samples points and each satisfies all hull inequalities of the data.", "quantifier": "all data, random streams and base sets", "why_tests_cant": "All random streams.", "anchors": ["hrosailing/processing/sampler.py: UniformRandomSampler.sample, _binary_rescale, _sample_generator"]}
{"id": "C56", "title": "The enclosing circle encloses", "statement": "If the enclosing circle computation returns, every point lies in the returned circle up to the tolerance.", "quantifier": "all point lists", "why_tests_cant": "All point lists, loop invariant.", "anchors": ["hrosailing/processing/sampler.py: _make_circle"]}
{"id": "C57", "title": "ZeroInjector adds n_zeros points at 0 and at 360 degrees", "statement": "ZeroInjector adds 2 n_zeros points with boat speed 0 and weight 1, half at 0 and half at 360 degrees, with wind speeds evenly spread over the range of the data.", "quantifier": "all data and counts", "why_tests_cant": "All data.", "anchors": ["hrosailing/processing/injector.py: ZeroInjector.inject"]}
{"id": "C58", "title": "NMEA coordinates are decoded to signed degrees", "statement": "A position given as ddmm.mmm is decoded to dd + mm.mmm/60 degrees, southern latitudes and western longitudes are negative.", "quantifier": "all coordinates and hemispheres", "why_tests_cant": "The claim ranges over infinitely many real inputs; a test fixes finitely many.", "anchors": ["hrosailing/processing/datahandler.py: _from_nmea_format, NMEAFileHandler.handle"]}
{"id": "C59", "title": "NMEA time stamps are decoded to the time they denote", "statement": "hhmmss.f is decoded to hour hh, minute mm, second ss and the fraction 0.f of a second.", "quantifier": "all time strings", "why_tests_cant": "All strings.", "anchors": ["hrosailing/processing/datahandler.py: _time_from_nmea_format"]}
{"id": "C60", "title": "ArrayHandler keeps columns", "statement": "ArrayHandler maps the i-th column of the array to the i-th key with all entries in order and raises ValueError when the number of keys differs from the number of columns.", "quantifier": "all arrays and key lists", "why_tests_cant": "All sizes.", "anchors": ["hrosailing/processing/datahandler.py: ArrayHandler.handle"]}
{"id": "C61", "title": "The regressor can start on every model function", "statement": "LeastSquareRegressor without initial values starts the fit with as many initial parameters as the model function takes after wind speed and wind angle.", "quantifier": "all model function signatures", "why_tests_cant": "All signatures.", "anchors": ["hrosailing/processing/regressor.py: LeastSquareRegressor._get_optimal_parameters, _determine_params"]}
{"id": "C62", "title": "Pipeline switches switch off their stage", "statement": "With a stage disabled (imputation, smoothing, weighing, filtering, injecting ...), the data passes this stage unchanged (with weight 1 where weighing is disabled), and every enabled stage is applied exactly once in the documented order.", "quantifier": "all component implementations, data and switch settings", "why_tests_cant": "All components (higher order).", "anchors": ["hrosailing/pipeline/pipeline.py: PolarPipeline.execute, _preprocess, _weigh_and_filter"]}
{"id": "C63", "title": "Test data does not influence the diagram", "statement": "The diagram returned by the pipeline depends only on the training data and the components, not on the test data.", "quantifier": "all components, training and test data", "why_tests_cant": "Non-interference over all pairs of runs.", "anchors": ["hrosailing/pipeline/pipeline.py: PolarPipeline.execute"]}
{"id": "C64", "title": "Pipeline statistics report the stage they are named after", "statement": "Each field of the returned training statistics holds the statistics of the component of this name.", "quantifier": "all components and data", "why_tests_cant": "All components.", "anchors": ["hrosailing/pipeline/pipeline.py: PolarPipeline.execute"]}
{"id": "C65", "title": "A list of data handlers is matched with the data", "statement": "When a list of data handlers is given, the i-th data set is read by the i-th handler.", "quantifier": "all lists of handlers and data", "why_tests_cant": "All lists.", "anchors": ["hrosailing/pipeline/pipeline.py: PolarPipeline._handle_data"]}
{"id": "C66", "title": "TableExtension interpolates every grid point", "statement": "The table produced by TableExtension holds at (ws_j, wa_i) the interpolation at this wind from the points in the neighbourhood, 0 if there is none; the resolution lists contain no value twice.", "quantifier": "all weighted points and resolutions", "why_tests_cant": "The claim ranges over infinitely many real inputs; a test fixes finitely many.", "anchors": ["hrosailing/pipeline/extensions.py: TableExtension.process, _extract_wind, _min_max_resolution, _interpolate_point"]}
{"id": "C67", "title": "WeatherExpander adds the weather of each row to this row", "statement": "Expanding data of n rows gives n rows, each with the weather at its time and position.", "quantifier": "all data and weather models", "why_tests_cant": "All data.", "anchors": ["hrosailing/pipeline/expander.py: WeatherExpander.expand"]}
{"id": "C68", "title": "Quality figures are consistent", "statement": "min_error <= average_error <= max_error, all are non-negative, average_error squared is at most average_quadratic_error, and they are the minimum, mean and maximum of |bsp - diagram(ws, wa)| over the test data; test_covering counts the distinct rounded winds.", "quantifier": "all diagrams and test data", "why_tests_cant": "The claim ranges over infinitely many real inputs; a test fixes finitely many.", "anchors": ["hrosailing/pipeline/quality_assurance.py: MinimalQualityAssurance.check, ComformingQualityAssurance.check"]}
{"id": "C69", "title": "Gridded weather is exact at grid points and interpolates between them", "statement": "GriddedWeatherModel.get_weather returns the stored weather at a grid point, the trilinear interpolation of the surrounding grid values elsewhere, hence a value between them, and raises ValueError outside the grid.", "quantifier": "all grids, data and query points", "why_tests_cant": "The claim ranges over infinitely many real inputs; a test fixes finitely many.", "anchors": ["hrosailing/models/weather_model.py: GriddedWeatherModel.get_weather, _recursive_affine_interpolation, _interpolate_weather_data"]}
{"id": "C70", "title": "MultiWeatherModel combines its models", "statement": "The combined weather maps every attribute to the value of the last model that supplies it; models that raise one of the documented exceptions are skipped.", "quantifier": "all lists of models and points", "why_tests_cant": "All lists.", "anchors": ["hrosailing/models/weather_model.py: MultiWeatherModel.get_weather"]}
{"id": "C71", "title": "Weather files round-trip", "statement": "GriddedWeatherModel.from_file(to_file(model)) gives a model with the same times, grid, attributes and data.", "quantifier": "all models", "why_tests_cant": "All contents.", "anchors": ["hrosailing/models/weather_model.py: GriddedWeatherModel.to_file, from_file"]}
{"id": "C72", "title": "SphericalGlobe projection round-trips and measures great circles", "statement": "lat_lon(project(p)) = p for latitudes in (-90,90) and longitudes in (-180,180]; projections have norm earth_radius; the distance is symmetric, zero only for equal positions, at most half the circumference, and the shortest path starts at start, ends at end and stays on the sphere.", "quantifier": "all positions", "why_tests_cant": "The claim ranges over infinitely many real inputs; a test fixes finitely many.", "anchors": ["hrosailing/models/globe_model.py: SphericalGlobe, _on_ball, _on_lat_lon, _angle"]}
{"id": "C73", "title": "FlatMercatorProjection round-trips", "statement": "lat_lon(project(p)) = p for latitudes in (-90,90) and longitudes in (-180,180]; the distance is a symmetric function satisfying the triangle inequality; the shortest path runs from start to end.", "quantifier": "all positions and poles", "why_tests_cant": "The claim ranges over infinitely many real inputs; a test fixes finitely many.", "anchors": ["hrosailing/models/globe_model.py: FlatMercatorProjection"]}
{"id": "C74", "title": "Influence models are consistent", "statement": "IdentityInfluenceModel returns the true wind data and evaluates the diagram at the given winds; for WindAngleCorrectingInfluenceModel, adding the influence evaluates the diagram at the shifted angle for single records and lists alike and removing subtracts the same shift modulo 360.", "quantifier": "all data, shifts and diagrams", "why_tests_cant": "The claim ranges over infinitely many real inputs; a test fixes finitely many.", "anchors": ["hrosailing/models/influencemodel.py: IdentityInfluenceModel, WindAngleCorrectingInfluenceModel"]}
{"id": "C75", "title": "convex_direction gives a convex combination towards the goal", "statement": "convex_direction returns one direction with proportion 1 or two directions whose proportions are in [0,1] and sum to 1, such that sailing the proportions of time in these directions moves the boat in the requested direction.", "quantifier": "all diagrams, wind speeds and directions", "why_tests_cant": "The claim ranges over infinitely many real inputs; a test fixes finitely many.", "anchors": ["hrosailing/cruising/basics.py: convex_direction, _get_first_proportion"]}
{"id": "C76", "title": "cruise reaches the destination", "statement": "Sailing the returned directions for the returned times covers exactly the displacement from start to end.", "quantifier": "all diagrams, winds and positions", "why_tests_cant": "The claim ranges over infinitely many real inputs; a test fixes finitely many.", "anchors": ["hrosailing/cruising/basics.py: cruise"]}
{"id": "C77", "title": "isochrone stops exactly at the time limit", "statement": "isochrone terminates and returns a position whose accumulated travel time equals the given total time, using at least min_nodes nodes.", "quantifier": "all diagrams, weather models, times and node counts", "why_tests_cant": "Termination and loop invariant for all inputs.", "anchors": ["hrosailing/cruising/basics.py: isochrone"]}
{"id": "C78", "title": "A slower boat is never faster", "statement": "The time needed per mile used by cost_cruise and isochrone is 1/boat speed; smaller boat speeds give larger times, in particular a boat speed of 0 gives the largest.", "quantifier": "all diagrams and winds", "why_tests_cant": "The claim ranges over infinitely many real inputs; a test fixes finitely many.", "anchors": ["hrosailing/cruising/basics.py: _get_inverse_bsp"]}
{"id": "C79", "title": "Cruise coordinate transformations invert each other", "statement": "_mercator_proj and _inverse_mercator_proj are mutually inverse; the wind components (u, v) and (speed, direction) determine each other.", "quantifier": "all positions and wind vectors", "why_tests_cant": "The claim ranges over infinitely many real inputs; a test fixes finitely many.", "anchors": ["hrosailing/cruising/basics.py: _mercator_proj, _inverse_mercator_proj, _uvgrid_to_tw, _wind_relative_to_north"]}
{"id": "C80", "title": "Plotting with info keeps every point with its group", "statement": "Splitting a slice by info values draws every point exactly once, groups are contiguous and separated by gaps, and each point is drawn in the group named by its own info entry.", "quantifier": "all slices and info lists", "why_tests_cant": "All sizes and patterns.", "anchors": ["hrosailing/plotting/projections.py: _alter_with_info, _get_info_intervals, _merge, HROPolar.plot"]}
{"id": "C81", "title": "Colour gradient coefficients are in [0,1]", "statement": "The gradient coefficients are in [0,1], the smallest value gets 0 and the largest 1, and a larger value gets a larger coefficient.", "quantifier": "all wind speed lists", "why_tests_cant": "The claim ranges over infinitely many real inputs; a test fixes finitely many.", "anchors": ["hrosailing/plotting/projections.py: _get_gradient_coefficients, _determine_colors_from_coefficients, _configure_color_cycle"]}
{"id": "C82", "title": "Model functions vanish head to wind", "statement": "The default model function of CurveExtension gives boat speed 0 at wind angles 0 and 360 for all parameters; the model functions accept the number of parameters their documentation lists.", "quantifier": "all parameters and wind speeds", "why_tests_cant": "The claim ranges over infinitely many real inputs; a test fixes finitely many.", "anchors": ["hrosailing/core/modelfunctions/_models3d.py: ws_s_wa_gauss_and_square, ws_s_wa_gauss"]}
{"id": "C83", "title": "Angle reduction yields [0,360) in floating point", "statement": "x % 360 on binary64 arrays returns a number in [0,360) for every finite x.", "quantifier": "all binary64 numbers", "why_tests_cant": "2^64 inputs; the failing ones are tiny negative numbers.", "anchors": ["hrosailing/polardiagram/_polardiagramtable.py: _Resolution_helper.build_wind_angle_resolution", "hrosailing/polardiagram/_polardiagrampointcloud.py: PolarDiagramPointcloud.__init__", "hrosailing/polardiagram/_polardiagramcurve.py: PolarDiagramCurve.__call__"]}
{"id": "C84", "title": "Calling a table is 360 degree periodic", "statement": "Calling a table at (ws, wa) and at (ws, wa + 360) gives the same boat speed, at listed winds and between them.", "quantifier": "all tables and winds", "why_tests_cant": "Holds for the listed winds that tests use, the interpolated winds form a continuum.", "anchors": ["hrosailing/polardiagram/_polardiagramtable.py: PolarDiagramTable.__call__"]}
{"id": "C85", "title": "get_points evaluates the diagram at every requested wind", "statement": "get_points(wind) returns one row (ws, wa, bsp) per requested wind, in order, where bsp is the value of the diagram at this wind; a tuple of resolutions requests all combinations.", "quantifier": "all diagrams and winds", "why_tests_cant": "All shapes and sizes of the wind argument.", "anchors": ["hrosailing/polardiagram/_basepolardiagram.py: PolarDiagram.get_points, _get_wind"]}
{"id": "C86", "title": "Cloud slices hold exactly the nearby points", "statement": "Slice i of a point cloud (without interpolator) contains exactly the stored points whose wind speed differs from the i-th requested one by at most range_, in stored order.", "quantifier": "all clouds, wind speeds and ranges", "why_tests_cant": "All clouds.", "anchors": ["hrosailing/polardiagram/_polardiagrampointcloud.py: ws_to_slices, _get_points"]}
{"id": "C87", "title": "Curve slices hold the boat speed of the listed angle", "statement": "Slice i of a curve has wa_resolution evenly spread angles from 0 to 360 degrees, each with the boat speed of the diagram for that angle, whatever unit the function takes.", "quantifier": "all curves, resolutions and wind speeds", "why_tests_cant": "All functions, both units.", "anchors": ["hrosailing/polardiagram/_polardiagramcurve.py: ws_to_slices"]}
{"id": "C88", "title": "The weight distribution in a weigher's statistics accounts for every weight once", "statement": "The ten percentages under the key quantiles are each between 0 and 100, every weight is counted in one of them, and they add up to 100.", "quantifier": "all non-empty weight lists", "why_tests_cant": "All weight lists, including weights on the boundaries.", "anchors": ["hrosailing/processing/weigher.py: Weigher.set_statistics"]}
{"id": "C89", "title": "The csv handler keeps every column", "statement": "CsvFileHandler.handle (without pandas) returns, for a csv file with distinct column names and rows no longer than the header, Data whose columns hold exactly the evaluated entries in file order under their standard names; a longer row raises IndexError; entries that cannot be parsed raise the documented RuntimeError.", "quantifier": "all csv files, all date formats and literal evaluators", "why_tests_cant": "All files and all contents.", "anchors": ["hrosailing/processing/datahandler.py: CsvFileHandler.handle, _save_eval"]}
{"id": "C90", "title": "NMEA wind sentences keep their reference and filters keep what was asked", "statement": "A wind sentence with reference R is stored as apparent wind, with reference T as true wind, and no other attribute of the sentence is changed; the sentence and attribute filters let through exactly the wanted (or not unwanted) sentences and attributes. Reading a file with filters gives the same as reading only the wanted sentences with only the wanted attributes without filters.", "quantifier": "all parsed sentences, all filter settings", "why_tests_cant": "All sentences and settings.", "anchors": ["hrosailing/processing/datahandler.py: NMEAFileHandler.__init__, _postprocess"]}
{"id": "C91", "title": "Pipeline keywords select the documented component or switch", "statement": "Every component and every switch of PolarPipeline is the one given under its short name, else the one given under its full name, else the documented default; a setting of one call does not carry over to the next, and testing is off without test data.", "quantifier": "all keyword dictionaries", "why_tests_cant": "All combinations of keywords and aliases.", "anchors": ["hrosailing/pipeline/pipeline.py: PolarPipeline.__init__, execute, _set_with_default"]}
{"id": "C92", "title": "Cloud and curve extensions build the diagram from the estimates", "statement": "The cloud made by PointcloudExtension consists of the sampled winds with non-negative speed, in order, each with the interpolated boat speed (0 if no point is near); CurveExtension returns the curve of the regressor's function and optimal parameters, and at every data point with an angle in [0,360) the regressor is given the wind at which the curve will evaluate the function.", "quantifier": "all samplers, regressors, neighbourhoods, interpolators and points", "why_tests_cant": "Higher order; infinitely many real inputs.", "anchors": ["hrosailing/pipeline/extensions.py: PointcloudExtension.process, CurveExtension.process, _convert_angles_to_radians"]}
{"id": "C93", "title": "The conforming quality check works for every diagram", "statement": "ComformingQualityAssurance.check returns its figures for every polar diagram and non-empty test set, and the local test data difference is the maximal difference of boat speeds at one rounded wind, as documented.", "quantifier": "all diagrams and test data", "why_tests_cant": "All diagrams; the failing inputs depend on the diagram type.", "anchors": ["hrosailing/pipeline/quality_assurance.py: ComformingQualityAssurance.check"]}
{"id": "C94", "title": "Removing and adding the wind angle correction fit together", "statement": "WindAngleCorrectingInfluenceModel: adding the influence to cleaned data evaluates the diagram at the recorded angles; and a diagram that reproduces the cleaned data returned by remove_influence yields, through add_influence on the recorded data, the recorded boat speeds.", "quantifier": "all data, shifts and diagrams", "why_tests_cant": "The claim ranges over all data and all diagrams.", "anchors": ["hrosailing/models/influencemodel.py: WindAngleCorrectingInfluenceModel.remove_influence, add_influence"]}
{"id": "C95", "title": "WindAngleCorrectingInfluenceModel.fit finds the emptiest wind angle", "statement": "fit sets the shift to a sampled angle at which the gaussian density of the recorded wind angles, weighted with the wind speeds, is smallest; angles are directions, so 359 and 0 are neighbours.", "quantifier": "all training data and interval sizes", "why_tests_cant": "The minimum ranges over all data; a test fixes one data set.", "anchors": ["hrosailing/models/influencemodel.py: WindAngleCorrectingInfluenceModel.fit"]}
{"id": "C96", "title": "NetCDFWeatherModel reads the file at the right indices", "statement": "Coordinates stored in descending order are turned around together with the data, each variable is read at the file's latitude, longitude and time of the grid point whatever the order of its dimensions, and the time axis is the file's time axis. The attributes are the variables of the file that are no coordinates, in the order of the file, and the weather has no other keys.", "quantifier": "all files, variables and indices", "why_tests_cant": "All orders of coordinates and dimensions, all sizes.", "anchors": ["hrosailing/models/weather_model.py: NetCDFWeatherModel.__init__, _get_data"]}
{"id": "C97", "title": "FlatMercatorProjection is centred at virt_zero", "statement": "The virtual zero point is projected to the origin of the map, for every virtual north pole and virtual zero that are 90 degrees apart.", "quantifier": "all virtual poles and zeros", "why_tests_cant": "All pairs of positions.", "anchors": ["hrosailing/models/globe_model.py: FlatMercatorProjection.__init__, project"]}
{"id": "C98", "title": "Both globe models agree along the equator", "statement": "For two positions on the equator FlatMercatorProjection.distance and SphericalGlobe.distance with the same earth radius return the same number.", "quantifier": "all pairs of longitudes and all radii", "why_tests_cant": "All longitudes; the failing pairs lie on both sides of the 180th meridian.", "anchors": ["hrosailing/models/globe_model.py: FlatMercatorProjection.distance, SphericalGlobe.distance"]}
{"id": "C99", "title": "convex_direction is optimal", "statement": "If convex_direction returns two directions, no other way of splitting the time between the recorded headings makes good more speed in the requested direction.", "quantifier": "all slices in which the boat can make way in every direction, all hull algorithms that keep their contract, all directions in [0,360)", "why_tests_cant": "The claim ranges over infinitely many real inputs; a test fixes finitely many.", "anchors": ["hrosailing/cruising/basics.py: convex_direction"]}
{"id": "C100", "title": "cruise treats the wind direction as an angle", "statement": "Wind directions that differ by 360 degrees give the same result of cruise.", "quantifier": "all diagrams, positions and winds", "why_tests_cant": "The claim ranges over infinitely many real inputs; a test fixes finitely many.", "anchors": ["hrosailing/cruising/basics.py: cruise"]}
{"id": "C101", "title": "cost_cruise adds absolute costs and the integral of the density", "statement": "A constant density k adds k times the length of the way, larger densities give larger costs, costs of densities add up, and with constant boat speed v the default cost is the length of the way divided by v. In full: the solver integrates the inverse boat speed along the straight line between the ends on the map, and the density is taken at the times of arrival and the positions on that line belonging to the nodes.", "quantifier": "all diagrams, positions, weather models and densities, all solvers that keep their contract", "why_tests_cant": "The claim ranges over infinitely many real inputs; a test fixes finitely many.", "anchors": ["hrosailing/cruising/basics.py: cost_cruise"]}
{"id": "C102", "title": "The true wind angle is the angle between bow and wind", "statement": "_uvgrid_to_tw returns the length of the wind vector, and wind angle 0 if the wind comes from straight ahead.", "quantifier": "all winds and headings", "why_tests_cant": "The claim ranges over infinitely many real inputs; a test fixes finitely many.", "anchors": ["hrosailing/cruising/basics.py: _uvgrid_to_tw"]}
{"id": "C103", "title": "_right_handing_course is the initial course of the great circle", "statement": "The returned angle has the cosine and sine of the great circle bearing from the first to the second point.", "quantifier": "all pairs of points", "why_tests_cant": "The claim ranges over infinitely many real inputs; a test fixes finitely many.", "anchors": ["hrosailing/cruising/basics.py: _right_handing_course"]}
{"id": "C104", "title": "_great_earth_ellipsoid_distance is a distance", "statement": "The distance is symmetric, 0 for equal points, the same for longitudes that differ by 360 degrees, the length of the arc on the equator, and the length of the arc up to one percent along a meridian.", "quantifier": "all pairs of points", "why_tests_cant": "The claim ranges over infinitely many real inputs; a test fixes finitely many.", "anchors": ["hrosailing/cruising/basics.py: _great_earth_ellipsoid_distance"]}
{"id": "C105", "title": "The wind formats of cruise agree", "statement": "The same wind given as components and as speed, true wind angle and heading is converted to the same wind relative to north.", "quantifier": "all winds and headings", "why_tests_cant": "The claim ranges over infinitely many real inputs; a test fixes finitely many.", "anchors": ["hrosailing/cruising/basics.py: _wind_relative_to_north, _uvgrid_to_tw"]}
{"id": "C106", "title": "cruise leaves influence_data unchanged", "statement": "After a call of cruise the caller's dictionary influence_data is the same as before.", "quantifier": "all calls", "why_tests_cant": "Aliasing over all dictionaries and repeated calls.", "anchors": ["hrosailing/cruising/basics.py: cruise"]}
{"id": "C107", "title": "Weather with the documented keys suffices", "statement": "isochrone and cost_cruise work with weather models that support the keys TWA and TWS.", "quantifier": "all such weather models", "why_tests_cant": "All weather models.", "anchors": ["hrosailing/cruising/basics.py: isochrone, cost_cruise, _get_inverse_bsp"]}
{"id": "C108", "title": "convex_direction reports impossible directions", "statement": "convex_direction raises a ValueError for a direction exactly if no way of splitting the time between the recorded headings makes way in this direction.", "quantifier": "all polar diagram slices with sorted wind angles in [0,360) and nonnegative speeds, all hull algorithms that keep their contract, all directions in [0,360)", "why_tests_cant": "That no combination of headings reaches a direction ranges over a continuum of ways to split the time; a test can try finitely many.", "anchors": ["hrosailing/cruising/basics.py: convex_direction"]}
{"id": "C109", "title": "cruise chooses the directions for the influenced boat speeds", "statement": "The directions returned by cruise are chosen by the boat speeds including the influence.", "quantifier": "all influence models", "why_tests_cant": "The claim ranges over infinitely many real inputs; a test fixes finitely many.", "anchors": ["hrosailing/cruising/basics.py: cruise"]}
{"id": "C110", "title": "isochrone sails in the given direction", "statement": "For positions given as latitude and longitude, sailing north (direction 0) increases the latitude and keeps the longitude, and sailing east keeps the latitude.", "quantifier": "all diagrams, positions, weather models and times", "why_tests_cant": "The claim ranges over infinitely many real inputs; a test fixes finitely many.", "anchors": ["hrosailing/cruising/basics.py: isochrone, _mercator_proj, _inverse_mercator_proj"]}
{"id": "C111", "title": "cost_cruise passes on the heading in degrees", "statement": "The heading given to the influence model is the course in degrees.", "quantifier": "all positions", "why_tests_cant": "The claim ranges over infinitely many real inputs; a test fixes finitely many.", "anchors": ["hrosailing/cruising/basics.py: cost_cruise, _right_handing_course, _get_inverse_bsp"]}
{"id": "C112", "title": "The plotted convex hull consists of the corners with their own names", "statement": "Plotting the convex hull of a slice draws exactly the corners of the hull, each with its own info entry, in ascending order of angles, plus points at 0 or 360 degrees that close the line; a line spanning at least half of the circle is closed.", "quantifier": "all slices, info lists and hull algorithms", "why_tests_cant": "The claim ranges over infinitely many real inputs; a test fixes finitely many.", "anchors": ["hrosailing/plotting/projections.py: _get_convex_hull"]}
{"id": "C113", "title": "The point added at 0 degrees lies on the hull", "statement": "If the hull has no corner at 0 or 360 degrees, the speed drawn there is the one at which the side between the last and the first corner crosses this direction.", "quantifier": "all slices whose hull spans at least half of the circle", "why_tests_cant": "The claim ranges over infinitely many real inputs; a test fixes finitely many.", "anchors": ["hrosailing/plotting/projections.py: _get_convex_hull"]}
{"id": "C114", "title": "Slices get the documented colours", "statement": "With (wind speed, colour) pairs every slice gets the colour named for it and the others are blue; with a list of colours the slices are coloured in turn; with two colours the colour is determined by the wind speed.", "quantifier": "all label lists and colour arguments", "why_tests_cant": "All sizes and patterns.", "anchors": ["hrosailing/plotting/projections.py: _configure_colors, _configure_color_cycle, _set_color_gradient"]}
{"id": "C115", "title": "A single colour is used for all slices", "statement": "If one colour is passed, in any form matplotlib accepts, all slices are drawn in it.", "quantifier": "all colours", "why_tests_cant": "All sizes and patterns.", "anchors": ["hrosailing/plotting/projections.py: _only_one_color, _configure_colors"]}
{"id": "C116", "title": "Surface plots leave out exactly the flat and the crossing triangles", "statement": "plot_surface draws a triangle depending on its corners only, not on the order in which they are listed, and leaves out those whose wind speeds all are within sqrt 0.2 of each other and those that cross the upper half of the axis.", "quantifier": "all triangles", "why_tests_cant": "The claim ranges over infinitely many real inputs; a test fixes finitely many.", "anchors": ["hrosailing/plotting/projections.py: Axes3D.plot_surface, Axes3D._prepare_points"]}
{"id": "C117", "title": "The text of a table shows the boat speeds below their wind speeds", "statement": "str(table) lists the wind speeds in the first line and, after a rule, one line per wind angle; in the columns of each listed wind speed stands, rounded to two places, the boat speed the table holds for this wind speed and this wind angle.", "quantifier": "all tables whose numbers are below a thousand", "why_tests_cant": "Tables of every size and content; the error appears only beyond 15 wind speeds.", "anchors": ["hrosailing/polardiagram/_polardiagramtable.py: PolarDiagramTable.__str__, _create_short_table, _create_long_table"]}
{"id": "C118", "title": "The texts of point clouds and diagrams with several sails are complete", "statement": "str(pointcloud) shows every point in order, one line each, with its three numbers in columns of their own; str(multisails) shows for every diagram in order the name of its sail and its text.", "quantifier": "all point clouds with numbers from 0 to 999; all lists of diagrams and sail names", "why_tests_cant": "All sizes and contents.", "anchors": ["hrosailing/polardiagram/_polardiagrampointcloud.py: PolarDiagramPointcloud.__str__", "hrosailing/polardiagram/_polardiagrammultisails.py: PolarDiagramMultiSails.__str__"]}
{"id": "C119", "title": "The text of a fuzzy statement tells which statement it is", "statement": "Two FuzzyBool objects built from one FuzzyVariable by comparisons, &, |, ~ and items that have the same text have the same truth function, and the text, read as a Python expression, builds that truth function again.", "quantifier": "all expressions over a FuzzyVariable, of any depth", "why_tests_cant": "Expressions can be nested arbitrarily; ambiguity of a notation shows only in particular pairs of expressions.", "anchors": ["hrosailing/processing/weigher.py: FuzzyBool.__and__", "hrosailing/processing/weigher.py: FuzzyBool.__invert__", "hrosailing/processing/weigher.py: FuzzyBool.__getitem__", "hrosailing/processing/weigher.py: FuzzyBool._concat_repr", "hrosailing/processing/weigher.py: FuzzyVariable.__str__"]}
{"id": "C120", "title": "The legend of a plot tells the colours of the slices", "statement": "With show_legend, plot() makes a legend (or colour bar) in which every plotted wind speed occurs, with the colour in which its slice is drawn.", "quantifier": "all lists of different wind speeds, all values for colors", "why_tests_cant": "All lists of wind speeds and all forms of the colors argument.", "anchors": ["hrosailing/plotting/projections.py: _configure_legend", "hrosailing/plotting/projections.py: _set_colormap", "hrosailing/plotting/projections.py: _set_legend_with_wind_speeds", "hrosailing/plotting/projections.py: _set_legend_without_wind_speeds"]}
{"id": "C121", "title": "Weather fetched from meteostat is stored at its place and hour", "statement": "GriddedWeatherModel.from_meteostat(lats, lons, ...) returns a model whose data at the grid point (time, latitude, longitude) are the values fetched for that place and hour.", "quantifier": "all lists of latitudes and longitudes, all answers of the weather service", "why_tests_cant": "Depends on which hours a weather service has for every place; a test has one answer.", "anchors": ["hrosailing/models/weather_model.py: GriddedWeatherModel.from_meteostat"]}
{"id": "C122", "title": "The axes of a point cloud", "statement": "wind_speeds and wind_angles of a point cloud list exactly the wind speeds and wind angles of its points, each once and in increasing order.", "quantifier": "all point clouds", "why_tests_cant": "Holds for clouds of any size with any repetitions; a test fixes finitely many.", "anchors": ["hrosailing/polardiagram/_polardiagrampointcloud.py: PolarDiagramPointcloud.wind_speeds, wind_angles"]}
{"id": "C123", "title": "Colour gradient plots show the boat speed of every point", "statement": "HROColorGradient.scatter draws every point of get_points at its wind speed and wind angle in the colour that its boat speed gives between the given colours, for every documented value of `colors` (a colour, a sequence of colours); the legend shows the colour of every boat speed.", "quantifier": "all polar diagrams, point lists and colours", "why_tests_cant": "Holds for point lists of any length with any speeds and any colours; tests look at single pictures.", "anchors": ["hrosailing/plotting/projections.py: HROColorGradient.scatter, _configure_legend, _determine_color_gradient"]}
{"id": "C124", "title": "Default points lie on the diagram", "statement": "The points that get_points returns without an argument have the boat speed that calling the diagram at their wind speed and wind angle returns; for a table they are exactly its entries, for a curve a grid of 128 wind speeds from 5 to 20 and 144 wind angles from 5 to 355.", "quantifier": "all tables, curves, point clouds and diagrams with several sails", "why_tests_cant": "The claim ranges over infinitely many diagrams and real winds; a test fixes finitely many.", "anchors": ["hrosailing/polardiagram/_polardiagramtable.py: PolarDiagramTable.default_points", "hrosailing/polardiagram/_polardiagramcurve.py: PolarDiagramCurve.default_points", "hrosailing/polardiagram/_polardiagrampointcloud.py: PolarDiagramPointcloud.default_points", "hrosailing/polardiagram/_polardiagrammultisails.py: PolarDiagramMultiSails.default_points"]}
{"id": "C125", "title": "Default slices span the wind speeds", "statement": "Without an argument get_slices uses evenly spaced wind speeds from the lowest to the highest one: twenty for a point cloud and for several sails, the whole numbers from 5 to 20 for a curve. Every point of a cloud is in at least one default slice.", "quantifier": "all point clouds, curves and diagrams with several sails", "why_tests_cant": "The claim ranges over infinitely many diagrams and real winds; a test fixes finitely many.", "anchors": ["hrosailing/polardiagram/_polardiagrampointcloud.py: PolarDiagramPointcloud.default_slices", "hrosailing/polardiagram/_polardiagramcurve.py: PolarDiagramCurve.default_slices", "hrosailing/polardiagram/_polardiagrammultisails.py: PolarDiagramMultiSails.default_slices"]}
{"id": "C126", "title": "Interpolated slices of a point cloud", "statement": "With an interpolator, each slice of a point cloud is an array of shape (3, n) with wind speeds, wind angles and interpolated boat speeds.", "quantifier": "all point clouds, wind speeds and resolutions", "why_tests_cant": "The claim ranges over infinitely many diagrams and real winds; a test fixes finitely many.", "anchors": ["hrosailing/polardiagram/_polardiagrampointcloud.py: PolarDiagramPointcloud.ws_to_slices"]}
{"id": "C127", "title": "Interpolators reject non-positive parameters", "statement": "An ArithmeticMeanInterpolator is made exactly for positive s, a ShepardInterpolator exactly for positive tolerance and slope; otherwise a ValueError is raised.", "quantifier": "all real parameters", "why_tests_cant": "The claim ranges over all real parameters.", "anchors": ["hrosailing/processing/interpolator.py: ArithmeticMeanInterpolator.__init__, ShepardInterpolator.__init__"]}
{"id": "C128", "title": "Gradient colours are valid colours in floating point", "statement": "For a list of numbers that are not all equal, the coefficients of a colour gradient computed in binary64 arithmetic lie in [0,1], keep the order of the numbers, and are exactly 0 and 1 for the smallest and largest. The colours mixed with them from two colours with channels in [0,1] again have all channels in [0,1] (matplotlib refuses others), and the extremes get exactly the given colours.", "quantifier": "all lists of binary64 numbers that are not all equal and all colours with binary64 channels in [0,1]", "why_tests_cant": "(1 - c) * a + c * b is rounded four times; a channel of 1 + 2^-52 for one unlucky coefficient would make plotting fail, and no test can try all coefficients", "anchors": ["hrosailing/plotting/projections.py:_get_gradient_coefficients", "hrosailing/plotting/projections.py:_determine_colors_from_coefficients"]}
{"id": "C129", "title": "Normalised weights stay in [0,1] in floating point", "statement": "Normalising nonnegative binary64 weights by their maximum gives binary64 numbers in [0,1] in the same order, with 1 for the largest; the weights of CylindricMeanWeigher computed from deviations lie in [0,1] and never are larger for a larger deviation.", "quantifier": "all lists of nonnegative binary64 numbers", "why_tests_cant": "holds for every list and every rounding of the division and the difference", "anchors": ["hrosailing/processing/weigher.py:_normalize", "hrosailing/processing/weigher.py:CylindricMeanWeigher.weigh"]}
{"id": "C130", "title": "Fuzzy logic in floating point", "statement": "Every fuzzy statement built from truth values in [0,1] has a truth value in [0,1] in binary64 arithmetic; De Morgan's laws hold exactly; negating twice gives the original truth value.", "quantifier": "all fuzzy statements over binary64 truth values in [0,1]", "why_tests_cant": "ranges over all statements and all roundings", "anchors": ["hrosailing/processing/weigher.py:FuzzyBool.fuzzy_and", "hrosailing/processing/weigher.py:FuzzyBool.fuzzy_or", "hrosailing/processing/weigher.py:FuzzyBool.fuzzy_not", "hrosailing/processing/weigher.py:FuzzyBool.sigmoid"]}
{"id": "C131", "title": "Step sizes list the multiples below the maximum in floating point", "statement": "A table created with a step size has as wind speeds (angles) exactly the multiples of the step strictly between 0 and 40 (360), also when the step is a binary64 number and the multiples are computed in binary64 arithmetic; in particular the angle 360 never occurs.", "quantifier": "all binary64 step sizes up to the maximum", "why_tests_cant": "whether the rounded quotient exceeds a whole number depends on the last bit of the step; a test tries some steps", "anchors": ["hrosailing/polardiagram/_polardiagramtable.py:_Resolution_helper._custom_stepsize_resolution"]}
{"id": "C132", "title": "The functions of one variable compute the documented formulas", "statement": "polynomial_function, inverted_parabola, inverted_shifted_parabola, concave_function, s_shaped, gaussian_model and gmm_model return the value of their documented formula for every setting of their switches, given enough parameters (and variances that are not zero); concave_function without saturation and downturn is a ValueError; too few parameters are an IndexError; gompertz_model with positive parameters, the second below one, is strictly increasing, positive and bounded by its third parameter.", "quantifier": "for all arguments and all parameter lists", "why_tests_cant": "the formulas have free real parameters and switches; a test fixes a few values of each", "anchors": ["hrosailing/core/modelfunctions/_models2d.py: polynomial_function, inverted_parabola, inverted_shifted_parabola, concave_function, s_shaped, gaussian_model, gmm_model, gompertz_model"]}
{"id": "C133", "title": "Files have their layout and are read back whatever characters they contain", "statement": "The text that to_csv writes for a table, a point cloud, a curve or a diagram with several sails starts with the name of the class and has one line per wind speed, angle, point or sail list as laid out; from_csv on that text gives the same diagram back, also if names of sails contain delimiters, quotation marks or line breaks. The same holds for the formats of ORC and OpenCPN, for the format array if the numbers are printed without blanks, quotation marks and number signs, and for any rows that csv.writer writes and csv.reader reads with the same delimiter. Files typed by hand are read row by row whichever of the three kinds of line ends each line has, also if the last line has none; a field beyond the limit of the csv module raises csv.Error; in the format array, comments and the number of blanks do not matter either.", "quantifier": "for all diagrams and all lists of rows of arbitrary texts (up to the limit of the length of a field), and all representations of numbers that are read back", "why_tests_cant": "quoting depends on where delimiters, quotes and line ends occur in arbitrary texts; a test uses a few names", "anchors": ["hrosailing/polardiagram/_polardiagramtable.py: to_csv, __from_csv__", "hrosailing/polardiagram/_polardiagrampointcloud.py: to_csv, __from_csv__", "hrosailing/polardiagram/_polardiagramcurve.py: to_csv, __from_csv__", "hrosailing/polardiagram/_polardiagrammultisails.py: to_csv, __from_csv__", "hrosailing/polardiagram/_reading.py: from_csv, _read_intern_format, _read_extern_format"]}
{"id": "C134", "title": "A plot has one line per wind speed, through the points of its slice, in the documented colour", "statement": "plot and scatter on polar and flat axes, for a diagram without several sails: the i-th line (or group of markers) belongs to the i-th wind speed, goes through exactly the points of its slice in order of increasing wind angle (radians on polar axes, degrees on flat ones), and has the documented colour: the single colour; the mixture of two colours at the place of the wind speed between the least and the greatest one; the colours in turn and then blue; or the colour paired with the wind speed and blue otherwise. With convex hulls the lines have the same colours and legend, and each runs through the corners of the hull of its slice by increasing angle; a line that spans half of the circle is closed at 0 and 360 degrees. A list with an entry that is no colour for one of the slices raises a ValueError.", "quantifier": "for all diagrams, wind speeds, numbers of steps, colour arguments of these four kinds and all sorting functions", "why_tests_cant": "colours and order interact with the choice of the slices; a test looks at a rendered picture of one diagram", "anchors": ["hrosailing/plotting/projections.py: HROPolar.plot, HROPolar.scatter, HROFlat.plot, HROFlat.scatter, _plot, _configure_axes", "hrosailing/polardiagram/_basepolardiagram.py: get_slices"]}
{"id": "C135", "title": "Deleting columns removes exactly those columns", "statement": "Data.delete with a list of column names removes exactly these columns; the others keep their order, entries and types and n_rows is unchanged. A name that is no column, or is no column any more, raises KeyError and the columns named before it are deleted.", "quantifier": "all well-formed Data objects and all lists of names", "why_tests_cant": "All tables and name lists, including repeated and unknown names.", "anchors": ["hrosailing/core/data.py: Data.delete"]}
{"id": "C136", "title": "The spiral samplers start from the documented spirals", "statement": "The base set of FibonacciSampler for the bound ub consists of the ub-1 points of radius sqrt(i/ub) turned by i golden angles 2*pi/phi (phi**2 = phi + 1), all in the unit disc. The base set of ArchimedeanSampler consists of the ub+1 points (b cos b, b sin b) whose arc values start with 0 and grow by 8/(b+2).", "quantifier": "all bounds", "why_tests_cant": "All numbers of points.", "anchors": ["hrosailing/processing/sampler.py: FibonacciSampler.sample, ArchimedeanSampler.sample"]}
{"id": "C137", "title": "A default run of the pipeline yields a polar table of the recorded speeds", "statement": "If a run of the pipeline with its default components for imputing, smoothing, expanding, influences, injecting and extending returns a diagram, then its wind angles are 5, 10, ..., 355, its wind speeds are consecutive steps of 2, and every boat speed lies in every interval that contains 0 and all recorded boat speeds. The boat speeds are those of the column BSP if it has an entry anywhere, and of SOG otherwise. If wind speeds and wind angles were recorded, the wind speeds of the table differ from the recorded range by at most 1/2.", "quantifier": "for all data handlers, all weighers, filters and quality checks, all settings of the switches, all input fields and test fields, and all missing entries", "why_tests_cant": "the claim combines eight components with arbitrary handlers, weighers and filters; tests run one file", "anchors": ["hrosailing/pipeline/pipeline.py: PolarPipeline.__call__, _preprocess, _extend", "hrosailing/pipeline/extensions.py: TableExtension.process", "hrosailing/processing/imputator.py: FillLocalImputator.impute", "hrosailing/processing/injector.py: ZeroInjector.inject", "hrosailing/processing/influencemodel.py: IdentityInfluenceModel"]}
{"id": "C138", "title": "Data.rows yields the rows in order, in the requested type", "statement": "data.rows(keys, return_type) yields row 0, row 1, ... under the keys, as dictionary, list or tuple in the order of keys, for every iterable keys; other types raise ValueError. Refuted for tuples: the items are generators that look up the row drawn last when they are read, so list(data.rows(keys, tuple)) shows the last row only. Refuted for iterators as keys: all rows but the first are empty.", "quantifier": "for all tables with columns of equal length, all keys of columns, all numbers of rows drawn before, all orders of drawing and reading", "why_tests_cant": "tests draw and read rows in one order; the effect depends on what the caller does between drawing and reading", "anchors": ["hrosailing/core/data.py: Data.rows", "hrosailing/pipeline/expander.py: WeatherExpander._get_weather"]}
{"id": "C139", "title": "Three-dimensional scatter of a polar diagram", "statement": "Axes3D.scatter(pd) draws every point (ws, wa, bsp) of the polar diagram at (bsp*sin(wa), bsp*cos(wa), ws). Given two or more colours, its colour lies between two neighbouring ones, at the place of its wind speed between the least and the greatest wind speed, up to 1/255; it is the first colour if all wind speeds are equal. The documented claim that it works identical to HROColorGradient.scatter (colour by boat speed) is false.", "quantifier": "for every list of points, every list of at least two colours and every colour converter", "why_tests_cant": "Colours are only seen by eye; matplotlib's table of 256 colours is never compared with the exact blend, and a test of one diagram does not tell colouring by wind speed from colouring by boat speed.", "anchors": ["hrosailing/plotting/projections.py:322-345", "hrosailing/plotting/projections.py:413-429", "hrosailing/plotting/projections.py:821-822"]}
{"id": "C140", "title": "A new pipeline with default components returns a table for every usable set of recordings", "statement": "A freshly made PolarPipeline whose components are the default ones (only the handler and the quality assurance are free) returns a table diagram whenever the handler reads the training fields, all fields have the same columns (a time, TWS, TWA and BSP among them), every column has at least one value and holds numbers (time stamps for the time, no negative wind speeds), the times never decrease, and at least one record is complete. All combinations of enabled and disabled stages are allowed; with testing, the test fields need the same shape. The wind angles are 5, 10, ..., 355, the wind speeds lie between the recorded ones up to rounding, the entries between the recorded boat speeds and 0. The condition on the columns cannot be dropped: two logs of which each alone gives a table can fail together when one has one column more.", "quantifier": "for all handlers, quality assurances, switches, training and test fields, and column sets", "why_tests_cant": "The claim is total correctness of the whole chain of imputation, three weighings and filterings, concatenation, zero injection and table extension for arbitrary recordings; tests run a handful of logs.", "anchors": ["hrosailing/pipeline/pipeline.py:166-209", "hrosailing/pipeline/pipeline.py:233-390", "hrosailing/processing/weigher.py:252-323", "hrosailing/processing/filter.py:76-103", "hrosailing/pipeline/extensions.py:90-120"]}
{"id": "C141", "title": "Malformed inputs raise the documented or at least a fixed kind of exception", "statement": "Item access of a table by lists of winds of the table that are not both of length one raises a TypeError, or an IndexError when the two lists have different lengths above one. Deleting a missing column raises a KeyError and leaves the object as it was. A csv row longer than the header raises an IndexError, a csv file without any line a StopIteration. An array of one dimension raises an IndexError and one of another width than the keys a ValueError. A time of an NMEA sentence with a letter among its first six places raises a ValueError, one of six digits without a fraction an IndexError. Weighted points with one weight for all raise an IndexError for an empty dictionary and a TypeError for a Data object. The file of a curve raises an IndexError for short rows, a ValueError for a flag that is neither True nor False or for too few parameters and a RuntimeError for an unknown function. An unknown sail raises a ValueError. Winds given partly as numbers and partly as arrays, or as arrays of different lengths, raise a ValueError. A weather file raises a ValueError for fewer than two parts or for an unreadable time and a TypeError for another number of parts than five. Weighers raise a ValueError for a radius that is not positive or a negative length. Smoothing a column without values raises an IndexError.", "quantifier": "for all tables, tables of data, files, arrays, times, points, diagrams with sails, and parameters of the described kinds", "why_tests_cant": "Which exception callers can rely on concerns all malformed inputs of a kind; tests check one instance with pytest.raises, if any.", "anchors": ["hrosailing/polardiagram/_polardiagramtable.py:303-309", "hrosailing/core/data.py:302-325", "hrosailing/processing/datahandler.py:75-106", "hrosailing/processing/datahandler.py:141-172", "hrosailing/processing/datahandler.py:366-382", "hrosailing/core/data.py:617-626", "hrosailing/polardiagram/_polardiagramcurve.py:191-202", "hrosailing/polardiagram/_polardiagrammultisails.py:72-79", "hrosailing/models/influencemodel.py:230-245", "hrosailing/models/weather_model.py:214-228", "hrosailing/processing/weigher.py:252-263", "hrosailing/processing/smoother.py:103-120"]}
{"id": "C142", "title": "Tables of other programs are read cell by cell", "statement": "A file in the format orc or opencpn gives a table in which every wind of the file has the boat speed of its row and column, by item access and by call, and 0 where the cell is empty; other winds are refused. Wind angles may carry a degree sign, rows and columns may come in any order, and the second line of an orc file is skipped whatever it holds.", "quantifier": "for all files with distinct wind speeds and distinct wind angles, all sizes and orders", "why_tests_cant": "All files; tests read four sample files with sorted winds and full cells.", "anchors": ["hrosailing/polardiagram/_reading.py:93-143", "hrosailing/polardiagram/_polardiagramtable.py:143-167"]}
{"id": "C143", "title": "Representations of components are calls that make them again", "statement": "The text repr() gives for a ball, scaling ball, IDW interpolator, bilinear interpolator, quantile filter, bound filter or cylindric weigher without chosen dimensions, whose norm has a name in scope, is one Python call that evaluates to an object with the same printed attributes; for every other modelled component and for curves it is stated how this fails (AttributeError, lost dimensions, unknown keyword, inverted matrix, invalid syntax).", "quantifier": "For all components made by their constructors, all printable numbers, all norms and all ways to print and read numbers and names.", "why_tests_cant": "Tests compare repr to a fixed text or do not check it; they do not evaluate the text for all parameters and would not see that dimensions and inverses are lost.", "anchors": ["hrosailing/processing/neighbourhood.py:77", "hrosailing/processing/neighbourhood.py:145", "hrosailing/processing/neighbourhood.py:236", "hrosailing/processing/neighbourhood.py:302", "hrosailing/processing/interpolator.py:97", "hrosailing/processing/interpolator.py:376", "hrosailing/processing/filter.py:83", "hrosailing/processing/filter.py:136", "hrosailing/processing/weigher.py:265", "hrosailing/processing/weigher.py:401", "hrosailing/polardiagram/_polardiagramcurve.py:124"]}
{"id": "C144", "title": "Interpolated boat speeds stay within the stored speeds in floating point", "statement": "Inverse distance interpolation and weighted averages, computed with binary64 numbers in whatever order numpy adds and with or without fused multiply-add, return a value between the smallest and the largest boat speed of the points used.", "quantifier": "For all non-empty lists of points with non-negative boat speeds, all distances and weights, all orders of summation.", "why_tests_cant": "Rounding depends on the order in which the machine adds; tests compare with a tolerance and try a few arrays.", "anchors": ["hrosailing/processing/interpolator.py:126-134", "hrosailing/processing/interpolator.py:252", "hrosailing/processing/interpolator.py:317-319"]}
{"id": "C145", "title": "Data objects own their columns", "statement": "Operations on a Data object change neither lists of the caller nor other Data objects: after any program of calls every Data object and every list of the caller is what it would be if columns were copied.", "quantifier": "For all programs of calls of Data methods on any number of Data objects and lists, all keys, values and masks.", "why_tests_cant": "Aliasing shows only in particular sequences of calls on several objects; tests look at single calls on fresh objects.", "anchors": ["hrosailing/core/data.py:150-177", "hrosailing/core/data.py:179-217", "hrosailing/core/data.py:236-262", "hrosailing/core/data.py:277-365", "hrosailing/core/data.py:445-536"]}
{"id": "C146", "title": "NMEA sentences are merged into rows without losing values", "statement": "The NMEA handler puts a sentence into the current row if that row has no value for any attribute of the sentence, otherwise it starts a new row; so for every attribute the column holds the values of the sentences in their order, none lost and none doubled, and values of different classes for one attribute are refused with ValueError.", "quantifier": "For all files of sentences, all filters, all attributes and values.", "why_tests_cant": "The grouping depends on the whole sequence of sentences; tests read one short file.", "anchors": ["hrosailing/processing/datahandler.py:274-322", "hrosailing/core/data.py:179-217"]}
{"id": "C147", "title": "Smoothing in floating point", "statement": "AffineSmoother on binary64 columns returns numbers within the range of each column, up to rounding; the first measurement is kept exactly and a constant column stays constant.", "quantifier": "for every table in chronological order with at least two rows, every timespan and all binary64 columns", "why_tests_cant": "A change of one unit in the last place shows up only for particular values; tests compare with a tolerance or use numbers with short binary expansions.", "anchors": ["hrosailing/processing/smoother.py:85-200"]}
{"id": "C148", "title": "Gridded weather in floating point", "statement": "GriddedWeatherModel.get_weather on binary64 data answers with the affine interpolation of the surrounding grid points up to rounding, exactly at grid points, and within the range of the data.", "quantifier": "for every grid and data of binary64 numbers and every point in the range of the grid", "why_tests_cant": "Rounding errors of nested interpolations depend on the values; tests use a few points and a tolerance.", "anchors": ["hrosailing/models/weather_model.py:118-136", "hrosailing/models/weather_model.py:249-313"]}
{"id": "C149", "title": "The quantile filter with rounded numbers", "statement": "In binary64 arithmetic the QuantileFilter still answers for every point, keeps at least one point, and keeps every point at least as heavy as a kept one. It removes fewer points than the computed rank (percent/100)*(n-1) plus one and, among different weights, more than the computed rank minus one; rounding shifts the rank by at most 4*n units of roundoff. It need not remove the same points as exact arithmetic: of 26 points with the weights 0..25 a filter of 28 per cent removes 8 points, more than 28 per cent.", "quantifier": "for all percents in [0, 100], all lists of fewer than 2^53 binary64 weights", "why_tests_cant": "The deviation occurs only for particular percents and numbers of points where percent/100*(n-1) rounds up past a whole number; sampled tests use round numbers.", "anchors": ["hrosailing/processing/filter.py:86-103"]}
{"id": "C150", "title": "Symmetrised diagrams in floating point", "statement": "With binary64 numbers PolarDiagramPointcloud.symmetrize adds the mirror image of every point up to 2^-45 degrees, a symmetrised curve has equal values on both sides, and symmetrising a symmetrised diagram adds no new points.", "quantifier": "all point clouds and model functions, all binary64 wind angles", "why_tests_cant": "Depends on the rounding of 360 - wa for 2^60 angles; 0.1 and 0.5 behave differently.", "anchors": ["hrosailing/polardiagram/_polardiagrampointcloud.py: PolarDiagramPointcloud.symmetrize", "hrosailing/polardiagram/_polardiagramcurve.py: PolarDiagramCurve.symmetrize"]}
{"id": "C151", "title": "The text of a Data object tells its content", "statement": "Two Data objects with the same text str(data) have the same columns in the same order with the same classes and the same entries.", "quantifier": "all Data objects and all texts of entries", "why_tests_cant": "Comparing all pairs of tables is impossible by testing; the collisions need long columns or texts with commas.", "anchors": ["hrosailing/core/data.py: Data.__str__"]}
{"id": "C152", "title": "Calls leave the arrays handed to them alone", "statement": "Creating a table or a point cloud, item access, change_entries, add_points and the wind conversions leave the numpy arrays of the caller unchanged, and diagrams share no data with them: every program that uses the same arrays for several calls gets the same diagrams and answers as if it had handed over copies.", "quantifier": "all programs of such calls on any arrays, lists and numbers", "why_tests_cant": "Whether a call writes to its argument shows only in a later use of the same array; tests use fresh lists for each call, which numpy copies.", "anchors": ["hrosailing/polardiagram/_polardiagramtable.py:143-173", "hrosailing/polardiagram/_polardiagramtable.py:303-340", "hrosailing/polardiagram/_polardiagramtable.py:727-755", "hrosailing/polardiagram/_polardiagramtable.py:773-805", "hrosailing/polardiagram/_polardiagrampointcloud.py:133-141", "hrosailing/polardiagram/_polardiagrampointcloud.py:301-326", "hrosailing/core/computing.py:14-38"]}
{"id": "C153", "title": "Items of tables under shifted angles in floating point", "statement": "In a table with binary64 wind angles every entry is found under the wind under which it was entered, under the angle under which the table lists it, and under this angle plus or minus any number of full turns.", "quantifier": "all wind speeds, binary64 wind angles and boat speeds of fitting shape, and all numbers of full turns up to 2^40", "why_tests_cant": "Tests look up whole degrees, whose shifts by full turns need no rounding; 0.1 and 360.1 degrees, or an angle just below 0, behave otherwise.", "anchors": ["hrosailing/polardiagram/_polardiagramtable.py:143-167", "hrosailing/polardiagram/_polardiagramtable.py:303-309", "hrosailing/polardiagram/_polardiagramtable.py:727-755", "hrosailing/polardiagram/_polardiagramtable.py:773-783"]}
{"id": "C154", "title": "Evenly spaced winds in floating point", "statement": "The wind speeds and wind angles obtained with np.linspace (angles of slices, default wind speeds, wind speeds between given ones) are ascending, pairwise different binary64 numbers between the given ends, contain all given wind speeds, and divide each gap evenly up to a few roundings.", "quantifier": "all binary64 ends that differ by at least 2^-900, all numbers of steps up to 2^39", "why_tests_cant": "Whether rounding pushes an entry beyond the end of the interval or swaps two entries depends on the ends and the number of steps; tests try a few integers.", "anchors": ["hrosailing/polardiagram/_basepolardiagram.py:100-128", "hrosailing/polardiagram/_polardiagramcurve.py:110", "hrosailing/polardiagram/_polardiagramcurve.py:153", "hrosailing/polardiagram/_polardiagrampointcloud.py:119", "hrosailing/polardiagram/_polardiagrampointcloud.py:220"]}
{"id": "C155", "title": "Smoothed values near jumps", "statement": "For strictly increasing time stamps the affine smoother replaces every row by the value of the following line: inside a run of equal values the value itself, and towards each end of the run, over the time span or over half of the run if this is shorter, the straight way to the mean of the values on both sides, reached half way between the two rows of the jump. Runs at the ends of the log last to the first and to the last time stamp; the last row takes the mean of the last two values.", "quantifier": "all positive time spans, all strictly increasing time stamps and all columns with at least two rows", "why_tests_cant": "Where the line bends depends on the spacing of the jumps relative to the time span; tests check one log.", "anchors": ["hrosailing/processing/smoother.py:103-120", "hrosailing/processing/smoother.py:122-141", "hrosailing/processing/smoother.py:143-177", "hrosailing/processing/smoother.py:179-202"]}
{"id": "C156", "title": "Statistics returned by a pipeline describe its run and stay as they are", "statement": "The statistics that PolarPipeline returns are never changed by later calls of this or other pipelines with the same components, they are those the program would return if it copied every dictionary; they are the same as with new components, whatever was done with the components before; and entries that the caller makes in them do not show up in the statistics of other runs.", "quantifier": "for all sequences of runs (also failing ones) of any pipelines, other calls of components and entries of the caller, whatever statistics the components set", "why_tests_cant": "Aliasing shows only with particular sequences of runs and components that keep quiet in some of their methods; tests run a pipeline once.", "anchors": ["hrosailing/core/statistics.py:6-28", "hrosailing/pipeline/pipeline.py:321-483", "hrosailing/pipeline/pipeline.py:47-49"]}
{"id": "C157", "title": "The text of a direction tells angle, share and sail", "statement": "str(direction) of two Direction objects is equal only if their angle, their proportion and their sail are equal.", "quantifier": "for all directions with floating point angles and proportions and every injective way of writing floating point numbers without spaces", "why_tests_cant": "The product proportion * 100 is rounded; only particular neighbouring numbers collide.", "anchors": ["hrosailing/cruising/basics.py:15-42"]}
{"id": "C158", "title": "Smoothed values of rows with equal time stamps", "statement": "For time stamps that do not decrease the affine smoother gives rows recorded at the same time the same value, even if different values were recorded: it is the value of the line of the run in which the first row of that time lies. A run at the beginning of the log that has no length keeps its value, so later rows of the first time stamp are replaced by it.", "quantifier": "all columns with at least two rows and all non-decreasing time stamps; the exact value for all positive time spans", "why_tests_cant": "Several values at one time stamp occur in merged logs only; tests use distinct time stamps.", "anchors": ["hrosailing/processing/smoother.py:103-120", "hrosailing/processing/smoother.py:122-141", "hrosailing/processing/smoother.py:143-177", "hrosailing/processing/smoother.py:179-202"]}
{"id": "C159", "title": "Symmetrised tables in floating point", "statement": "With floating point wind angles a symmetrised table contains exactly the entries of the table and, for each of them, an entry with the same wind speed and boat speed whose angle differs from the mirror image by at most 2^-45 degrees. Every entry can be read at its angle and at 360 minus its angle, as computed, and so can every entry of the symmetrised table.", "quantifier": "all tables with distinct wind speeds and distinct wind angles in [0, 360)", "why_tests_cant": "Rounding of 360 minus the angle matters for small angles with fractions only; tests use whole degrees.", "anchors": ["hrosailing/polardiagram/_polardiagramtable.py:493-565", "hrosailing/polardiagram/_polardiagramtable.py:808-817", "hrosailing/polardiagram/_polardiagramtable.py:303-309"]}
{"id": "C160", "title": "Mean weigher in floating point", "statement": "With floating point arithmetic the weights given by the mean weigher lie in [0, 1], and unless all of them are 1 at least one is 0. A point whose cylinder contains only points of its own boat speed gets the weight 1.", "quantifier": "all arrays of points, all norms, radii and orders of summation for which each point lies in its own cylinder", "why_tests_cant": "Equal boat speeds in a cylinder are judged by the rounding error of their mean: most test values, such as whole numbers, show none.", "anchors": ["hrosailing/processing/weigher.py:271-339"]}
{"id": "C161", "title": "Fluctuation weigher in floating point", "statement": "With floating point arithmetic the weight the fluctuation weigher gives to a row lies in [0, 1]. It is 0 exactly if in the window of the row the standard deviation of some attribute reaches its upper bound; the product of the factors is not lost by rounding. A larger standard deviation never gives a larger weight. A row in whose window no attribute changes gets the weight 1.", "quantifier": "all non-empty windows, all positive upper bounds, all orders of summation; the second claim for up to 19 attributes", "why_tests_cant": "That small factors do not underflow and that neighbouring numbers do not cancel to 0 concerns values tests do not hit; equal values judged by the rounding error of their mean look right for whole numbers.", "anchors": ["hrosailing/processing/weigher.py:501-546"]}
{"id": "C162", "title": "Optimal directions with an influence model", "statement": "convex_direction uses only the first slice of the wind speeds it is given. With an influence model the directions are those of a diagram whose slice has the influenced boat speeds: one for each point, or the same one for all points if the model gives a single boat speed (so the boat sails as if its diagram were a circle). Any other number of boat speeds raises a ValueError; errors of the model are passed on.", "quantifier": "all diagrams, wind speeds, directions, influence models and convex hulls; the refusal for slices with at least two points", "why_tests_cant": "The outcome of the influence model is broadcast silently against the slice, so a test with matching lengths sees neither the circle nor the error.", "anchors": ["hrosailing/cruising/basics.py:98-108"]}
{"id": "C163", "title": "Member weigher in floating point", "statement": "With floating point arithmetic the weights given by the member weigher lie in [0, 1] and compare exactly as the numbers of points in the cylinders do: more points give a strictly larger weight, equal numbers the same weight. A point alone in its cylinder gets 0, a point with the fullest cylinder gets 1 unless all points are alone.", "quantifier": "all non-empty arrays of up to 2^52 points, all norms, radii and lengths for which each point lies in its own cylinder", "why_tests_cant": "That rounding the quotients neither merges nor swaps different numbers of neighbours is a statement about all pairs of whole numbers.", "anchors": ["hrosailing/processing/weigher.py:333-339", "hrosailing/processing/weigher.py:407-451"]}
{"id": "C164", "title": "Interpolated time stamps in floating point", "statement": "With the fraction rounded to a double and the product rounded to whole microseconds, interpolating missing time stamps fills the same rows as exact interpolation does, with stamps at most one microsecond apart. For a chronological recording it keeps the known stamps, puts each filled stamp between its known neighbours and less than one microsecond from the line through them, and the result is chronological again. The filled stamp is not always the one nearest to the line.", "quantifier": "all lists of time stamps with gaps (chronological ones where stated), all largest differences below 2^53 microseconds", "why_tests_cant": "Rounding twice may move a stamp beyond its neighbour or exchange stamps for particular gap lengths only.", "anchors": ["hrosailing/processing/imputator.py:190-206"]}
{"id": "C165", "title": "Positions in time given to the fill functions in floating point", "statement": "With the quotients of time differences rounded to doubles, the fill functions of the local imputator get a position in [0, 1] that is off by at most 2^-54. It is 0 only at the time of the measured value and 1 only at the end of the gap or at the time limit, which before and after measurements is never reached. Within a gap a later row gets a strictly greater position than an earlier one, rows at the same time the same. If both measured neighbours have the same time the position is 1. Measured values are left alone.", "quantifier": "all columns and time stamps in order, all fill functions, time limits up to 2^52 microseconds", "why_tests_cant": "That rounding never reaches the ends nor merges two positions concerns all pairs of times.", "anchors": ["hrosailing/processing/imputator.py:245-305"]}
{"id": "C166", "title": "Sails of the optimal directions", "statement": "Whenever convex_direction returns, each returned direction is the course of a row of the first slice together with the sail recorded for this row (no sail if the diagram has none), and the proportions sum to 1. A single direction is only returned for two neighbouring rows with the same sail; two directions of neighbouring rows have different sails.", "quantifier": "all diagrams, wind speeds, directions, influence models and hulls whose vertices are points of the slice", "why_tests_cant": "All slices, labels and hulls.", "anchors": ["hrosailing/cruising/basics.py:98-149"]}
{"id": "C167", "title": "NMEA positions in floating point", "statement": "A position ddmm.mmm of D whole degrees and M minutes is decoded with floating point numbers to D + M/60 degrees up to 2^-44 of a degree. The whole degrees are never off by one: the result lies between D and D + 1, it is exactly D for no minutes, and a greater position is never decoded to a smaller number.", "quantifier": "all whole degrees from 0 to 180 and all real minutes from 0 to 60", "why_tests_cant": "The truncated quotient of rounded numbers could be off by one for particular positions only.", "anchors": ["hrosailing/processing/datahandler.py:360-364"]}
{"id": "C168", "title": "Error figures in floating point", "statement": "MinimalQualityAssurance.check in floating point: the largest and smallest error are the extreme rounded distances of the boat speeds from the values of the diagram; both averages lie between the figures for the extremes up to one relative rounding error 2^-53 per test point and one underflow; the largest error is zero exactly if the diagram reproduces every test point, and then all figures are zero. A single error is exact when speed and value are within a factor of two. The average error may be greater than the largest error and smaller than the smallest one.", "quantifier": "all non-empty test data and values of the diagram that are binary64 numbers, all orders of summation", "why_tests_cant": "The roundings depend on the numbers and the order of summation.", "anchors": ["hrosailing/pipeline/quality_assurance.py:49-72"]}
{"id": "C169", "title": "Statistics of data handlers", "statement": "The statistics of a data handler name the number of rows, which is the length of every column of the data, and the number of columns, which is the number of different keys.", "quantifier": "all data of any size whose columns have equal length", "why_tests_cant": "All sizes and keys.", "anchors": ["hrosailing/processing/datahandler.py:46-54"]}

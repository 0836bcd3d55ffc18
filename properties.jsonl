{"id": "C01", "title": "Cell lookup never leaves the array", "statement": "On a Cartesian grid with at least one cell per axis, looking up the cell of a position succeeds exactly when no coordinate is NaN and every coordinate lies in the closed limits of its axis, and the index returned is then always smaller than the number of cells on every axis. This holds in IEEE double arithmetic, including rounding, overflow, infinite and degenerate limits.", "quantifier": "every position, every pair of limits per axis (any doubles, incl. NaN and infinities), every cell count from 1 up to 2^53+1 per axis", "why_tests_cant": "The set of doubles is far too large to sample, and the danger is a rounding of (p-lo)/(hi-lo)*(n-1) upwards at some unlucky pair of doubles.", "anchors": ["src/grid/cartesian_grid.rs:is_inside", "src/grid/cartesian_grid.rs:cell_id"]}
{"id": "C02", "title": "Positions outside the grid are inert", "statement": "On a Cartesian grid, adding, inserting or adding a trajectory value at a position that is outside the limits or has a NaN coordinate leaves the whole grid (data and weights) unchanged, and reading the value at such a position gives NaN.", "quantifier": "every Cartesian grid of 1 to 2^53+1 cells per axis, position and value, in doubles", "why_tests_cant": "A test fixes one grid and a handful of positions.", "anchors": ["src/grid/cartesian_grid.rs:add_value", "src/grid/cartesian_grid.rs:insert", "src/grid/cartesian_grid.rs:add_trajectory_value", "src/grid/cartesian_grid.rs:get_value"]}
{"id": "C03", "title": "Adding a value touches exactly one cell", "statement": "Adding a value at a position inside the grid adds the value to the data of exactly the cell that cell_id reports and 1 to its weight; every other cell, and the geometry, are unchanged. Insert overwrites the data of that cell only, leaves all weights alone, and a following get_value at any position of the same cell returns the inserted value.", "quantifier": "every grid, position, value and every other cell", "why_tests_cant": "Frame conditions quantify over all the cells that must not change.", "anchors": ["src/grid/cartesian_grid.rs:add_value", "src/grid/cartesian_grid.rs:insert", "src/grid/cartesian_grid.rs:get_value", "src/grid/cartesian_grid.rs:add_to_cell"]}
{"id": "C04", "title": "A fresh grid accumulates any history exactly", "statement": "After any sequence of add_value calls on a fresh grid, the data of each cell is the in-order sum of the values whose positions fall in that cell and its weight is exactly their number (exact in doubles up to 2^53 additions).", "quantifier": "every finite sequence of (position, value) additions, every cell", "why_tests_cant": "The claim is about histories of unbounded length.", "anchors": ["src/grid/cartesian_grid.rs:add_value", "src/grid/cartesian_grid.rs:new"]}
{"id": "C05", "title": "Cell index is monotone in the position", "statement": "Along each axis, moving a position upwards inside the grid never lowers the cell index (in IEEE double arithmetic).", "quantifier": "all pairs of positions inside the grid, all limits and cell counts", "why_tests_cant": "Monotonicity under three roundings is a statement about all pairs of doubles.", "anchors": ["src/grid/cartesian_grid.rs:cell_id"]}
{"id": "C06", "title": "Which cell the published centres are found in", "statement": "On a Cartesian grid, looking up the centre published for cell (i,j,k) gives per axis of n cells the index itself for cells of the lower half (2i+1 <= n) and the index before it for the others.", "quantifier": "every Cartesian grid of 1 to 2^53+1 cells per axis and every cell (ideal arithmetic)", "why_tests_cant": "Holds for small k and fails for large k; a test with the wrong k passes.", "anchors": ["src/grid/cartesian_grid.rs:new", "src/grid/cartesian_grid.rs:cell_id"]}
{"id": "C07", "title": "Extent of the cells", "statement": "On a Cartesian axis of n >= 2 cells, cell i holds exactly the positions in [lo + i w, lo + (i+1) w) with w = (hi-lo)/(n-1), so the last one holds only the upper limit; an axis of one cell holds everything.", "quantifier": "every Cartesian grid of 1 to 2^53+1 cells per axis, position inside and cell (ideal arithmetic)", "why_tests_cant": "Needs the exact preimage of every cell.", "anchors": ["src/grid/cartesian_grid.rs:cell_id"]}
{"id": "C08", "title": "Slicing at a position selects the plane containing it", "statement": "slice(axis, position) returns, for every position from the lower limit up to but not including the upper limit, the plane of the cell whose published interval contains the position; at the upper limit itself it panics.", "quantifier": "every grid, axis 0..2 and position within the limits (ideal arithmetic)", "why_tests_cant": "Failure happens only at (or one rounding below) the upper limit.", "anchors": ["src/grid/cartesian_grid.rs:slice", "src/grid/cartesian_grid.rs:slice_idx"]}
{"id": "C09", "title": "A new grid has the published geometry", "statement": "A new Cartesian grid has data and weights of the requested shape filled with zeros, the requested limits, and cell centres lo + (k+1/2)*(hi-lo)/n that are strictly increasing, equally spaced and strictly inside the limits; constructing from one- or two-dimensional limits is refused.", "quantifier": "every cell count >= 1 and every limits with lo < hi (ideal arithmetic)", "why_tests_cant": "Quantifies over all sizes and limits.", "anchors": ["src/grid/cartesian_grid.rs:new", "src/grid.rs:Dim"]}
{"id": "C10", "title": "Trajectory values are conserved", "statement": "Adding a trajectory value between two positions inside the grid adds half of it to the cell of each end point and half a unit of weight to each, so the totals over the whole grid grow by exactly the value and by exactly 1, also when both ends share a cell; if either end is outside, nothing is added.", "quantifier": "every grid, pair of positions and value (totals in ideal arithmetic)", "why_tests_cant": "Sum over all cells, all pairs of positions.", "anchors": ["src/grid/cartesian_grid.rs:cell_ids_in_trajectory", "src/grid/cartesian_grid.rs:add_trajectory_value"]}
{"id": "C11", "title": "new_zeros clears the data and keeps the geometry", "statement": "new_zeros returns a grid with the same geometry and shape whose data are all zero and whose weights are those of the original.", "quantifier": "every grid after every history of operations", "why_tests_cant": "Only grids that have already accumulated weight show the difference.", "anchors": ["src/grid/cartesian_grid.rs:new_zeros", "src/grid/cylindrical_grid.rs:new_zeros", "src/grid/vector_grid.rs:new_zeros"]}
{"id": "C12", "title": "divide_by_weight turns sums into means", "statement": "After any sequence of additions to a fresh grid, divide_by_weight leaves in every visited cell the arithmetic mean of the values added to it (so between their minimum and maximum in ideal arithmetic) and NaN in every cell never visited (in doubles).", "quantifier": "every history and every cell", "why_tests_cant": "Unbounded histories.", "anchors": ["src/grid/cartesian_grid.rs:divide_by_weight", "src/grid/cartesian_grid.rs:divide_by_scalar", "src/grid/cartesian_grid.rs:divide_by_array"]}
{"id": "C13", "title": "Shape invariant", "statement": "Data and weights keep the shape of the grid under every sequence of grid operations that does not panic and divides only by arrays of the grid shape; set_data and set_weights with any other shape are refused.", "quantifier": "every such sequence of grid operations", "why_tests_cant": "Invariant over unbounded operation sequences.", "anchors": ["src/grid/cartesian_grid.rs:set_data", "src/grid/cartesian_grid.rs:set_weights", "src/grid.rs:GridFunctions3D"]}
{"id": "C14", "title": "Collapse along one axis is the weighted mean", "statement": "collapse(axis) returns for each line of cells along the axis the weight-weighted mean of the non-NaN data (NaN data count as 0 but keep their weight); with non-negative weights of positive sum it lies between the smallest and largest (NaN-replaced) value; the result shape drops exactly that axis; collapse_weight returns the sums of the weights and conserves their total; axis > 2 panics.", "quantifier": "every grid shape, every data and weights, every axis (ideal arithmetic)", "why_tests_cant": "All shapes and data.", "anchors": ["src/grid/cartesian_grid.rs:collapse", "src/grid/cartesian_grid.rs:collapse_weight"]}
{"id": "C15", "title": "Collapse along two axes", "statement": "collapse_two and collapse_two_weight do not depend on the order of the two axes, refuse equal axes, return a vector along the remaining axis; the weights are the sums over both axes and the values are the weighted mean over the whole plane.", "quantifier": "every grid and every pair of axes", "why_tests_cant": "All shapes, all axis pairs including swapped ones.", "anchors": ["src/grid/cartesian_grid.rs:collapse_two", "src/grid/cartesian_grid.rs:collapse_two_weight"]}
{"id": "C16", "title": "Outlier removal modes 0 and 1", "statement": "After outlier_removal with mode 1 no cell exceeds the threshold, after mode 0 no cell exceeds a non-negative threshold; cells that did not exceed it keep their value bit for bit, the weights never change, and repeating the call changes nothing. Any mode other than 0, 1 and 2 is refused.", "quantifier": "every grid content (incl. NaN and infinities), threshold and mode", "why_tests_cant": "All contents.", "anchors": ["src/grid/cartesian_grid.rs:outlier_removal", "src/grid/cylindrical_grid.rs:outlier_removal"]}
{"id": "C17", "title": "Outlier removal mode 2", "statement": "outlier_removal with mode 2 leaves data and weights of every cell not above the threshold untouched and replaces each other cell, also on the border, by the mean of its in-range face, edge and corner neighbours (on Cartesian grids those that are not outliers), computed from the data before the call. With overflow checks the call panics exactly if an outlier lies on the lower border, and gives the same result otherwise.", "quantifier": "every grid shape below 2^63, content, threshold and cell", "why_tests_cant": "The border cases depend on the build profile and on the position of the outlier.", "anchors": ["src/grid/cartesian_grid.rs:outlier_removal", "src/grid/cylindrical_grid.rs:outlier_removal"]}
{"id": "C18", "title": "Slice by index returns exactly the plane", "statement": "slice_idx(axis, k) returns the plane k orthogonal to the axis with the other two axes in order; k out of range (n <= k and k + n < 2^64 for n planes) or axis > 2 panics; the n largest 64-bit numbers are the planes counted from the end (2^64 - n + k is plane k).", "quantifier": "every grid, axis and k", "why_tests_cant": "All shapes.", "anchors": ["src/grid/cartesian_grid.rs:slice_idx"]}
{"id": "C19", "title": "Cylindrical rings have equal volume", "statement": "The ring boundaries of a cylindrical grid start at 0, strictly increase, end at the outer radius, and consecutive rings have equal cross-section area; the outer radius is half the larger of the x and y extents.", "quantifier": "every number of rings >= 1 and every limits (ideal arithmetic)", "why_tests_cant": "Induction over the number of rings.", "anchors": ["src/grid/cylindrical_grid.rs:new"]}
{"id": "C20", "title": "Cylindrical lookup finds the ring", "statement": "For every position inside a cylindrical grid (distance from the axis at most the outer radius, height within the limits) the lookup succeeds, the radial index is in range and the ring it names contains the distance; adding a value there changes exactly that cell.", "quantifier": "every cylindrical grid, position inside and value (ideal arithmetic, true polar coordinates)", "why_tests_cant": "All radii, including ring boundaries.", "anchors": ["src/grid/cylindrical_grid.rs:cell_id", "src/grid/cylindrical_grid.rs:is_inside", "src/grid/cylindrical_grid.rs:to_cylindrical"]}
{"id": "C21", "title": "Cylindrical lookup finds the angle and height cell", "statement": "For every position at angle theta and height z inside a cylindrical grid, with t the cell whose published interval contains the angle (or height), the index found is t if the value is in the upper half of that interval or t is 0, and t-1 otherwise.", "quantifier": "every cylindrical grid, every position off the axis given by distance, angle and height (ideal arithmetic)", "why_tests_cant": "Wrong only for part of each cell.", "anchors": ["src/grid/cylindrical_grid.rs:cell_id"]}
{"id": "C22", "title": "Vector grids act component-wise", "statement": "A vector grid behaves as three scalar grids: under any sequence of operations other than neighbour outlier removal each component equals the scalar grid fed with that component, and all three share geometry and weights.", "quantifier": "every such sequence of operations", "why_tests_cant": "Simulation relation over unbounded histories.", "anchors": ["src/grid/vector_grid.rs:add_value", "src/grid/vector_grid.rs:new", "src/grid/vector_grid.rs:divide_by_weight"]}
{"id": "C23", "title": "Cylindrical velocity components", "statement": "On a cylindrical grid whose axis passes through the origin a vector grid converts a velocity into its radial component, its angular velocity about the axis and the axial component, and radial^2 + (distance * angular)^2 = vx^2 + vy^2. On a Cartesian grid the velocity is unchanged.", "quantifier": "every position off the axis and every velocity (ideal arithmetic)", "why_tests_cant": "Right only for centred grids.", "anchors": ["src/grid/vector_grid.rs:velocity_calculation"]}
{"id": "C24", "title": "Radius selection", "statement": "A particle passes the radius filter iff the filter is unset (-1 first), or it has one entry equal to the radius, or two entries that bracket it (inclusive), or more entries containing it.", "quantifier": "every filter list and radius", "why_tests_cant": "All list lengths and values.", "anchors": ["src/particleselector.rs:is_radius_valid"]}
{"id": "C25", "title": "Cloud and density selection", "statement": "The cloud and density filters follow the same rule as the radius filter applied to their own lists whenever their list has one entry, or their list and the radius list agree on having two entries (density: also on the upper end of a two-entry list).", "quantifier": "every such combination of filter lists and every value", "why_tests_cant": "The interaction appears only for particular combinations of list lengths.", "anchors": ["src/particleselector.rs:is_cloud_valid", "src/particleselector.rs:is_density_valid"]}
{"id": "C26", "title": "Particle id selection", "statement": "A particle passes the id filter iff the first entry is 0 (no filter), or there is one entry equal to the id, or two entries that bracket it (inclusive), or more entries containing it; every id but 0 can be selected alone.", "quantifier": "every non-empty filter list and id", "why_tests_cant": "All lists.", "anchors": ["src/particleselector.rs:is_particleid_valid"]}
{"id": "C27", "title": "Default selector accepts everything; filters compose conjunctively", "statement": "The default selector accepts every particle at every finite time; in general a particle is accepted iff it passes all filters, and a timestep iff its time lies in the closed window. A set filter never accepts more than an unset one.", "quantifier": "every particle and time, every filter", "why_tests_cant": "Universally quantified over particles.", "anchors": ["src/particleselector.rs:is_valid", "src/particleselector.rs:timestep_valid", "src/particleselector.rs:default"]}
{"id": "C28", "title": "Buffered reading is transparent (PData)", "statement": "For a particle-ordered file get_timestep(t) returns exactly the data of timestep t for every t in range after any history of earlier reads, forwards, backwards or random; the buffer never changes what is observed and no read is out of bounds.", "quantifier": "every file content, number of timesteps and every sequence of reads", "why_tests_cant": "The state space is all buffer windows times all histories.", "anchors": ["src/datamanager/pdata.rs:get_timestep", "src/datamanager/pdata.rs:update"]}
{"id": "C29", "title": "Buffered reading is transparent (TData)", "statement": "The same for time-ordered files.", "quantifier": "every file content, number of timesteps and every sequence of reads", "why_tests_cant": "The state space is all buffer windows times all histories.", "anchors": ["src/datamanager/tdata.rs:get_timestep", "src/datamanager/tdata.rs:update"]}
{"id": "C30", "title": "Auxiliary buffers are transparent", "statement": "Time-ordered files: whatever is returned through an auxiliary buffer, after any history, is the data of the timestep asked for, and after a set-up any sequence of non-decreasing auxiliary reads succeeds. Particle-ordered files of up to 20000 timesteps: every auxiliary read through an existing buffer returns the data of the timestep asked for.", "quantifier": "every such file, buffer and interleaving of in-range reads", "why_tests_cant": "Interleavings of two cursors over unbounded files.", "anchors": ["src/datamanager/pdata.rs:get_timestep_buffer", "src/datamanager/tdata.rs:get_timestep_buffer", "src/datamanager/pdata.rs:setup_buffer", "src/datamanager/tdata.rs:setup_buffer"]}
{"id": "C31", "title": "Unbuffered equals buffered", "statement": "Reading a timestep without buffering gives the same data as the buffered read, for time-ordered files, and for particle-ordered files with one particle and complete records.", "quantifier": "every such file, history and timestep", "why_tests_cant": "All file contents.", "anchors": ["src/datamanager/pdata.rs:get_timestep_unbuffered", "src/datamanager/tdata.rs:get_timestep_unbuffered"]}
{"id": "C32", "title": "Nearest timestep search", "statement": "Searching the timestep closest to a given time terminates, is an error exactly if the time lies outside the recorded span, and otherwise returns a record within a hundredth of a second of the request or one of the two records around it.", "quantifier": "every non-empty sorted array of finite times and every finite request", "why_tests_cant": "Binary search over all array lengths and spacings.", "anchors": ["src/datamanager.rs:timestep_at_seconds_closest"]}
{"id": "C33", "title": "Rotation is a rigid motion", "statement": "Rotating positions about the anchor preserves distances between any two particles and distances to the anchor, rotating velocities preserves speeds, zero angles change nothing, and the anchor is fixed.", "quantifier": "all positions, velocities, angles and anchors (ideal arithmetic)", "why_tests_cant": "Universal over the reals.", "anchors": ["src/datamanager/utilities.rs:rotate_position", "src/datamanager/utilities.rs:rotate_velocity"]}
{"id": "C34", "title": "numberfield counts every accepted particle once", "statement": "numberfield returns for each cell exactly the number of (timestep, particle) pairs with the timestep in the time window, the particle accepted by the selector and its position in that cell; nothing is lost or counted twice.", "quantifier": "every dataset, selector, grid and cell", "why_tests_cant": "Sum over unbounded datasets; frame over all cells.", "anchors": ["src/functions.rs:numberfield"]}
{"id": "C35", "title": "velocityfield is the mean over accepted samples", "statement": "On a grid without data velocityfield returns in each cell the mean of the chosen velocity component over the accepted samples whose value lies in [min,max], NaN where there is none, weights equal to the number of samples; modes other than the documented ones are refused.", "quantifier": "every dataset, selector, mode and limits; every Cartesian grid in doubles, every grid in ideal arithmetic", "why_tests_cant": "All datasets, all previous uses of the grid.", "anchors": ["src/functions.rs:velocityfield"]}
{"id": "C36", "title": "vectorfield averages each component", "statement": "vectorfield on a fresh grid returns in each cell the component-wise mean velocity of the accepted samples, and all components share one weight field.", "quantifier": "every dataset, selector and grid", "why_tests_cant": "All datasets.", "anchors": ["src/functions.rs:vectorfield"]}
{"id": "C37", "title": "occupancyfield is a fraction of the observed time", "statement": "occupancyfield returns for each cell the share of the time deposited there in the time of all counted moves (a move from one timestep to the next of a selected particle, starting inside the grid; the last two timesteps are not used); entries are non-negative and sum to at most 1, and to 1 if no counted move leaves the grid; NaN everywhere if nothing is counted. Recordings of fewer than three timesteps panic with overflow checks.", "quantifier": "every dataset of at least three timesteps read in time order, selector and grid; sums in ideal arithmetic", "why_tests_cant": "Sum over all cells and steps.", "anchors": ["src/functions.rs:occupancyfield"]}
{"id": "C38", "title": "Histogram totals", "statement": "velocity histogram: every accepted sample not slower than the lower limit is counted in the bin whose edges enclose its speed and in no other; counts are exact; the edges are increasing, one more than the bins, from the lower to the upper limit; other properties are refused.", "quantifier": "every dataset, selector, number of bins >= 1 and limits; edges in ideal arithmetic", "why_tests_cant": "Sum over unbounded data; boundary rounding.", "anchors": ["src/functions.rs:histogram"]}
{"id": "C39", "title": "Granular temperature is a per-cell standard deviation", "statement": "On a grid without data granular_temperature_field returns in each cell the square root of the variance of the chosen velocity component over the accepted samples (xyz: mean of the three variances); radicands are never negative and zero exactly for uniform velocities (ideal arithmetic); cells without samples are NaN and unknown modes are refused (doubles).", "quantifier": "every dataset, selector, mode and grid", "why_tests_cant": "Cauchy-Schwarz over unbounded sums; reuse of grids.", "anchors": ["src/functions.rs:granular_temperature_field"]}
{"id": "C40", "title": "Dispersion is a sample variance", "statement": "On a grid without data dispersion returns in each cell with at least two moves the sum over axes of the unbiased sample variance of the end points after the delay, 0 elsewhere; never negative, zero exactly if the end points coincide; the second result is the weighted mean. In doubles the call returns for finite times.", "quantifier": "every dataset, selector, delay and grid (values in ideal arithmetic)", "why_tests_cant": "Unbounded sums; reuse of grids.", "anchors": ["src/functions.rs:dispersion"]}
{"id": "C41", "title": "Mean velocity", "statement": "mean_velocity_showcase returns the mean speed of all samples in the time window of the selector, NaN speeds ignored, NaN without any; mean_velocity returns the mean recorded in the header.", "quantifier": "every dataset and selector", "why_tests_cant": "Unbounded sums and all selectors.", "anchors": ["src/functions.rs:mean_velocity_showcase", "src/functions.rs:mean_velocity"]}
{"id": "C42", "title": "Homogeneity index", "statement": "The homogeneity index is the standard deviation over the layers along z of the occupancy field collapsed over x and y (ideal arithmetic); hence non-negative and zero exactly when every layer is equally occupied. It returns whenever the occupancy field does.", "quantifier": "every dataset, selector, minimum velocity and grid", "why_tests_cant": "All fields.", "anchors": ["src/functions.rs:homogenity_index"]}
{"id": "C43", "title": "Lacey mixing index", "statement": "On a grid without data lacey_mixing returns for every recorded timestep but the last that is in the time window its time and (s0^2 - s^2)/(s0^2 - s0^2/n) from the shares of the first type in the whole bed and in each sufficiently filled cell; it is at most n/(n-1), attained exactly when all cells have the share of the bed. It returns whenever both types are present.", "quantifier": "every dataset, pair of different types, threshold >= 1 and grid (values in ideal arithmetic)", "why_tests_cant": "All datasets.", "anchors": ["src/functions/mixing.rs:lacey_mixing"]}
{"id": "C44", "title": "Concentration field", "statement": "concentration_field returns in each cell the share of the first type among the samples of both types there in all timesteps but the last, correctly rounded, so a number in [0,1], NaN where there is none, weights (grid without data) equal to the number of samples; swapping the types gives the complement (ideal arithmetic).", "quantifier": "every dataset, selector, different types and Cartesian grid with up to 2^53 samples per cell", "why_tests_cant": "All datasets.", "anchors": ["src/functions/mixing.rs:concentration_field"]}
{"id": "C45", "title": "Mean squared displacement", "statement": "On a grid without data msd_field returns in each cell (sum of d)^2 / n for the n displacements d of moves starting there before the last timestep, 0 where there are none, which is at most n times the mean squared displacement; msd returns for each delay of an equally spaced sequence the sum over the cells of (sum of d)^2 divided by the number of all moves.", "quantifier": "every dataset, selector, delays and grid (ideal arithmetic)", "why_tests_cant": "All datasets.", "anchors": ["src/functions/mixing.rs:msd_field", "src/functions/mixing.rs:msd"]}
{"id": "C46", "title": "Extract returns the requested range", "statement": "extract returns for the requested particle one row per timestep of the range [a,b), b below the number of timesteps, row i holding time, position and velocity of timestep a+i; every other range and missing particles are refused.", "quantifier": "every dataset, particle and range", "why_tests_cant": "All ranges including the last timestep.", "anchors": ["src/functions/extractions.rs:extract"]}
{"id": "C47", "title": "Circulation times are time differences of crossings", "statement": "The circulation times are exactly the differences of the times of the first and the third of consecutive triples of crossings in each row of the data, so those of one row do not overlap; in a recording whose rows keep their particle these are crossings of one particle; a crossing is a step from strictly one side of the boundary to strictly the other; none is negative if times are non-decreasing.", "quantifier": "every dataset, selector, axis and boundary", "why_tests_cant": "Automaton over unbounded histories.", "anchors": ["src/functions/conditional.rs:circulation_time"]}
{"id": "C48", "title": "Two-boundary circulation", "statement": "The reported intervals are exactly the round trips of each row: from leaving the circulation boundary to leaving it again in the same sense with a passage into the opposite region in between; intervals of a row are ordered and disjoint if times are non-decreasing.", "quantifier": "every dataset, selector, axis and pair of boundaries", "why_tests_cant": "Automaton over unbounded histories.", "anchors": ["src/functions/conditional.rs:circulation_time_two_boundary"]}
{"id": "C49", "title": "Sort lists are permutations", "statement": "The sort list of an id array is a permutation of its indices that sorts the ids, stable for equal ids; reordering scalar and 3-vector data by it keeps every particle's data together.", "quantifier": "every id array and data of matching length", "why_tests_cant": "All permutations and lengths.", "anchors": ["src/converter/convertertools.rs:make_sortlist", "src/converter/convertertools.rs:sort_by_array"]}
{"id": "C50", "title": "Sorting CSV rows", "statement": "Sorting rows by a column yields a permutation of the rows that is ordered in that column, keeps the order of ties, and changes nothing if already sorted; NaN in the column is refused.", "quantifier": "every table without NaN in the column", "why_tests_cant": "All tables.", "anchors": ["src/converter/convertertools.rs:sort_by_column", "src/converter/convertertools.rs:is_sorted"]}
{"id": "C51", "title": "Resampling onto a regular time base", "statement": "interpolate onto s steps returns s rows, first and last are the first and the last sample, row k between lies at time k*max/s, and is either blank or on a chord of two samples; affine motion is reproduced exactly at all times before the middle of the last gap (ideal arithmetic); unsorted and empty input is refused.", "quantifier": "every table with sorted times and every number of steps", "why_tests_cant": "All tables.", "anchors": ["src/converter/convertertools.rs:interpolate", "src/converter/convertertools.rs:interpolate_step"]}
{"id": "C52", "title": "Velocity from local polynomial fits", "statement": "velocity_polynom on n rows with odd window s >= 3 returns n-s+1 rows, row i carrying the time and position of the middle sample of the window and the derivative of the fitted polynomials at the sample after the middle, hence the exact velocity for linear motion; even windows, windows of 1 and short tables are refused.", "quantifier": "every table, window and degree; exact fit of exactly polynomial data assumed for the velocity of linear motion", "why_tests_cant": "All tables.", "anchors": ["src/converter/convertertools.rs:velocity_polynom"]}
{"id": "C53", "title": "CSV conversion: one timestep per positive time", "statement": "Converting a (non-empty) CSV file of one particle writes exactly one timestep for every distinct positive time in the file, in increasing order of time, holding the position and velocity columns of the first row with that time; the conversion is refused exactly if more than 500 rows are at or before time zero or one time occurs more than 501 times. With velocities computed by fitting, exactly those fitted rows are written that are later than zero and than all rows before them.", "quantifier": "every table", "why_tests_cant": "Filter with memory over unbounded tables.", "anchors": ["src/converter.rs:csv_converter"]}
{"id": "C54", "title": "CSV header: counts, times, lowest values and means", "statement": "The header written for a CSV file gives the number of timesteps, the times, the last time, the mean of every velocity component and of the speed, and for every coordinate, velocity component and the speed the lowest written value; the highest written value is given whenever some later value is at least as high as the first.", "quantifier": "every table", "why_tests_cant": "Depends on the order of extremes.", "anchors": ["src/converter.rs:csv_converter"]}
{"id": "C55", "title": "A converted CSV file reads back as written", "statement": "A CSV file converted with at least one timestep can be opened, and reading its timesteps in any order and any number of times gives for timestep k exactly the k-th written time, position and velocity, with the radius given at conversion.", "quantifier": "every table", "why_tests_cant": "Only tables with rejected rows differ.", "anchors": ["src/converter.rs:csv_converter"]}
{"id": "C56", "title": "VTK conversion keeps file order and particle order", "statement": "Converting a sequence of VTK files whose times (file number times step) never decrease writes one timestep per file, in order; in each, all fields of a particle (id, radius or half the diameter, type, position, velocity) stand at the same index, the particles sorted by id (equal ids in file order). Files whose times decrease are refused. Reading the result back through the TData reader, in any order, gives these timesteps.", "quantifier": "every sequence of files with any ids and field contents, every order of reads", "why_tests_cant": "All sequences, id permutations and read histories.", "anchors": ["src/converter.rs:vtk", "src/converter/convertertools.rs:make_sortlist"]}
{"id": "C57", "title": "VTK header: times, lowest values, means", "statement": "The header written for VTK files gives the number of timesteps, all times, first and last time, the last time step as sample rate, the lowest value and the mean of every coordinate and velocity component and of the speed over all particles of all timesteps (the highest value whenever some later sample is not below the first), and as particle number the largest id.", "quantifier": "every sequence of files", "why_tests_cant": "Depends on ids and on order of extremes.", "anchors": ["src/converter.rs:vtk"]}
{"id": "C58", "title": "Grouping rows by particle id", "statement": "Grouping a CSV by particle id gives one table per id, ascending in id, each holding exactly that id's rows in input order; the time returned is the latest of the table, and the number of steps is the size of the largest group if that is at least two.", "quantifier": "every table", "why_tests_cant": "All tables, all interleavings of ids.", "anchors": ["src/converter/csv_modes/csv_multi_idline.rs:sort_by_id"]}
{"id": "C59", "title": "Chained CSV: which trajectories are written", "statement": "Converting a CSV in which trajectories follow each other (each starting before the time at which the previous one ends) writes as particle 0, 1, ... exactly the trajectories of at least ten lines that are followed by another one, in order: every line later than all the lines before it at its own row. The header describes the lines written and its number of timesteps is the longest particle's. The conversion panics exactly if such a trajectory cannot be written (first line without velocity, more than 500 lines in a row that are not news).", "quantifier": "every CSV table with time, position and velocity columns in any order and NaN-free times", "why_tests_cant": "All splits into trajectories, all lengths.", "anchors": ["src/converter/csv_modes/csv_multi_chain.rs:csv_multi_chain"]}
{"id": "C60", "title": "Indexing a dataset", "statement": "len(data) is the number of timesteps. data[i] gives the table (id, position, velocity: one line per particle) of timestep i for 0 <= i < n and of timestep n+i for -n <= i < 0. A list of such indices gives one block per entry, in order; a slice a:b:s with s > 0 whose span is a multiple of s gives exactly the timesteps a, a+s, ... below b, with Python clamping of a and b. Blocks are filled up with zero lines to the particle number of the header. The data set can be read on afterwards as before.", "quantifier": "every dataset of either file kind after any history of in-range operations, every index, index list and such slice", "why_tests_cant": "All indices, slices, dataset lengths and read histories.", "anchors": ["src/pylib.rs:__getitem__", "src/pylib.rs:__len__"]}
{"id": "C61", "title": "File kind dispatch", "statement": "Opening a file reads it as time-ordered iff its type attribute is 1 and as particle-ordered iff it is 2; a missing file, a missing attribute and every other value are refused.", "quantifier": "every attribute value and file", "why_tests_cant": "All attribute values.", "anchors": ["src/pylib.rs:constructor"]}
{"id": "C62", "title": "Binary threshold comparison", "statement": "binary_threshold keeps the shape and maps a cell to 1 iff its value exceeds the value of rank trunc(q * number of cells) among the sorted non-zero entries, else to 0 (hence monotone); it answers exactly if 0 <= q <= 1, no entry is NaN and there are more non-zero entries than that rank, so never for q = 1.", "quantifier": "every field of at least two cells (fewer than 2^53 for the rank formula) and every quantile", "why_tests_cant": "All fields and quantiles.", "anchors": ["src/comparison.rs:binary_threshold"]}
{"id": "C63", "title": "NaN-aware statistics", "statement": "nan_mean and nan_std depend only on the entries that are not NaN and are the (rounded) sum over count and the root of the mean squared deviation of those; in exact arithmetic the mean lies between the extremes and the deviation is 0 iff all entries are equal; the deviation is never negative, and without a number the answer is NaN.", "quantifier": "every array", "why_tests_cant": "All arrays.", "anchors": ["src/utilities.rs:nan_mean", "src/utilities.rs:nan_std"]}
{"id": "C64", "title": "minmax, meshgrid and flatten", "statement": "minmax returns the least and the greatest entry of every array with at least one number whose numbers are finite, ignoring NaN; meshgrid and meshgrid3d give at (i,j[,k]) the i-th, j-th (k-th) coordinate; flatten is row-major and loses nothing.", "quantifier": "every array", "why_tests_cant": "All arrays.", "anchors": ["src/utilities/maths.rs:minmax", "src/utilities/maths.rs:meshgrid", "src/utilities/maths.rs:flatten_2d"]}
{"id": "C65", "title": "Out-of-range reads", "statement": "Reading a timestep index that is not below the number of timesteps is refused (an error or panic) for both file kinds; it is never answered with the data of another timestep.", "quantifier": "every file, every history of earlier reads and every index past the end", "why_tests_cant": "Depends on the buffer window left by an arbitrary history.", "anchors": ["src/datamanager/pdata.rs:get_timestep", "src/datamanager/tdata.rs:get_timestep"]}
{"id": "C66", "title": "CSV header: highest values and sample rate", "statement": "The header written for a CSV file gives the highest written value of every coordinate, velocity component and the speed, and a sample rate that reflects the time step.", "quantifier": "every table", "why_tests_cant": "Depends on the order of extremes.", "anchors": ["src/converter.rs:csv_converter"]}
{"id": "C67", "title": "VTK header: number of particles", "statement": "The header's particle number is the number of particles in the files, and its highest values are those of the written data.", "quantifier": "every sequence of files", "why_tests_cant": "Depends on ids and on the order of extremes.", "anchors": ["src/converter.rs:vtk"]}
{"id": "C68", "title": "Id-labelled CSV: one particle per id", "statement": "Converting a CSV whose lines carry a particle id writes one particle group per id, numbered in ascending order of the ids, holding that id's lines in the order of time (ties in file order), every line later than all before it at its own row; the header describes the lines written. It panics exactly if a particle cannot be written.", "quantifier": "every CSV table with time, id, position and velocity columns in any order and NaN-free times", "why_tests_cant": "All interleavings of ids and times.", "anchors": ["src/converter/csv_modes/csv_multi_idline.rs:csv_multi_idline"]}
{"id": "C69", "title": "Files with several particles lose nothing", "statement": "Every particle of a multi-particle CSV file can be read back from the converted file, with every line at its own position.", "quantifier": "every CSV table", "why_tests_cant": "Depends on where the last trajectory ends, on the header and on ties in time.", "anchors": ["src/converter/csv_modes/csv_multi_chain.rs:csv_multi_chain", "src/converter/csv_modes/csv_multi_idline.rs:csv_multi_idline"]}
{"id": "C70", "title": "One CSV file per timestep", "statement": "Converting a list of CSV files with a list of times stores every file as the timestep of its place, at the time given for it, with its lines (id, position, velocity) in file order and radius, number and type zero; reading the result back gives exactly these timesteps, in any order of reads. Dimensions, velocity ranges and means describe all lines. Too few times, a file without lines or a wrong number of columns panic.", "quantifier": "every list of files and of times, columns in any order", "why_tests_cant": "All files, times and read histories.", "anchors": ["src/converter/csv_modes/csv_multi_file_time_step.rs:csv_multi_file_time_step", "src/datamanager/tdata.rs"]}
{"id": "C71", "title": "Indexing follows the Python sequence protocol", "statement": "Every slice gives the timesteps Python would select (also with a remainder, a negative step or an empty selection), and an index outside -n..n-1 is refused, so that iteration ends.", "quantifier": "every index and slice", "why_tests_cant": "All indices and slices.", "anchors": ["src/pylib.rs:__getitem__"]}
{"id": "C72", "title": "Array helpers at the edges", "statement": "A quantile q marks the entries above the q-quantile of the non-zero entries; the computed mean lies between the least and the greatest entry; minmax is right for every array with a number, infinities included.", "quantifier": "every array and quantile", "why_tests_cant": "All arrays and quantiles.", "anchors": ["src/comparison.rs:binary_threshold", "src/utilities.rs:nan_mean", "src/utilities/maths.rs:minmax"]}
{"id": "C73", "title": "Published positions agree with the lookup", "statement": "The centre published for a cell is found in that cell, cells have the published width (hi-lo)/n, and on cylindrical grids the angle and height index name the cell whose interval contains the position.", "quantifier": "every grid and cell", "why_tests_cant": "Quantifies over every input; the code violates it only for some.", "anchors": ["src/grid/cartesian_grid.rs:cell_id", "src/grid/cylindrical_grid.rs:cell_id"]}
{"id": "C74", "title": "No position makes a grid panic", "statement": "Positions outside a cylindrical grid are inert as on a Cartesian one, slices work for every position within the closed limits, and every position inside a cylindrical grid is found, in doubles.", "quantifier": "every grid and position", "why_tests_cant": "Quantifies over every input; the code violates it only for some.", "anchors": ["src/grid/cylindrical_grid.rs:add_value", "src/grid/cylindrical_grid.rs:cell_id", "src/grid/cartesian_grid.rs:slice"]}
{"id": "C75", "title": "Results do not depend on what the grid held before", "statement": "new_zeros gives a grid like a newly constructed one, and velocityfield, granular_temperature_field and dispersion give the same result on a grid that already holds data as on an empty one.", "quantifier": "every grid and history", "why_tests_cant": "Quantifies over every input; the code violates it only for some.", "anchors": ["src/grid/cartesian_grid.rs:new_zeros", "src/functions.rs:velocityfield", "src/functions.rs:granular_temperature_field", "src/functions.rs:dispersion"]}
{"id": "C76", "title": "Grid operations keep the shape and the shared weights and do not panic", "statement": "divide_by_array keeps the shape of the grid or refuses, the components of a vector grid share their weights under every operation, and outlier removal works on the border also with overflow checks.", "quantifier": "every grid and operation", "why_tests_cant": "Quantifies over every input; the code violates it only for some.", "anchors": ["src/grid/cartesian_grid.rs:divide_by_array", "src/grid/vector_grid.rs:outlier_removal"]}
{"id": "C77", "title": "Radial and angular velocity components", "statement": "Radial and angular components refer to the axis of the grid wherever it lies, and the modes r and theta of velocityfield use them.", "quantifier": "every cylindrical grid", "why_tests_cant": "Quantifies over every input; the code violates it only for some.", "anchors": ["src/grid/vector_grid.rs:velocity_calculation", "src/functions.rs:velocityfield"]}
{"id": "C78", "title": "Filters are independent of each other", "statement": "Cloud and density filters do not depend on the radius filter, every id (also 0) can be selected alone, and the mean speed respects the selector.", "quantifier": "every selector", "why_tests_cant": "Quantifies over every input; the code violates it only for some.", "anchors": ["src/particleselector.rs:is_cloud_valid", "src/particleselector.rs:is_density_valid", "src/particleselector.rs:is_particleid_valid", "src/functions.rs:mean_velocity_showcase"]}
{"id": "C79", "title": "Auxiliary and unbuffered reads are transparent", "statement": "Every in-range read through an auxiliary buffer, addressed by its name, or without buffering returns the data of the timestep asked for.", "quantifier": "every file, buffer and interleaving of reads", "why_tests_cant": "Quantifies over every input; the code violates it only for some.", "anchors": ["src/datamanager/pdata.rs:get_timestep_buffer", "src/datamanager/tdata.rs:get_timestep_buffer", "src/datamanager/pdata.rs:get_timestep_unbuffered"]}
{"id": "C80", "title": "The closest timestep is the nearest", "statement": "The index found for a time is that of the record nearest to it.", "quantifier": "every sorted time array and request", "why_tests_cant": "Quantifies over every input; the code violates it only for some.", "anchors": ["src/datamanager.rs:timestep_at_seconds_closest"]}
{"id": "C81", "title": "Every recorded timestep counts", "statement": "occupancyfield, concentration_field and extract use every recorded timestep, the last one included, and work on recordings of any length.", "quantifier": "every dataset", "why_tests_cant": "Quantifies over every input; the code violates it only for some.", "anchors": ["src/functions.rs:occupancyfield", "src/functions/mixing.rs:concentration_field", "src/functions/extractions.rs:extract"]}
{"id": "C82", "title": "Histogram counts exactly the samples in its range", "statement": "Samples below the lower limit or without a speed are not counted, and with the default limit the fastest sample is.", "quantifier": "every dataset", "why_tests_cant": "Quantifies over every input; the code violates it only for some.", "anchors": ["src/functions.rs:histogram"]}
{"id": "C83", "title": "Statistics in doubles are what they claim", "statement": "The granular temperature of a uniform velocity is a number, empty layers do not contribute to the homogeneity index, a perfectly mixed bed has Lacey index at most 1 and an absent type is not a crash, and msd_field is the mean of the squared displacements.", "quantifier": "every dataset", "why_tests_cant": "Quantifies over every input; the code violates it only for some.", "anchors": ["src/functions.rs:granular_temperature_field", "src/functions.rs:homogenity_index", "src/functions/mixing.rs:lacey_mixing", "src/functions/mixing.rs:msd_field"]}
{"id": "C84", "title": "Every crossing is noticed and belongs to one particle", "statement": "A particle that passes a boundary is seen to cross it also if it lands on the boundary or jumps over both boundaries, and crossings of different particles are never combined.", "quantifier": "every dataset and boundary", "why_tests_cant": "Quantifies over every input; the code violates it only for some.", "anchors": ["src/functions/conditional.rs:circulation_time", "src/functions/conditional.rs:circulation_time_two_boundary"]}
{"id": "C85", "title": "Resampling and velocities are exact", "statement": "Resampled times are equally spaced, values are interpolated between the samples around them and reproduce a sample at its own time, no row is blank, and the velocity is the derivative at the middle of the window.", "quantifier": "every table", "why_tests_cant": "Quantifies over every input; the code violates it only for some.", "anchors": ["src/converter/convertertools.rs:interpolate", "src/converter/convertertools.rs:velocity_polynom"]}
{"id": "C86", "title": "Vector plots show each cell of the plane once", "statement": "A quiver plot of a vector grid in a plane has exactly one arrow per cell of that plane: it starts at the cell centre and points along the two in-plane velocity components of that cell, or their average over the depth. Every vector grid that was built and filled through the API can be plotted.", "quantifier": "every vector grid, axis, selected layer and cell", "why_tests_cant": "Must hold for every grid shape and filling; a swapped axis shows only for particular aspect ratios.", "anchors": ["src/plotting/plotting_2d/quiver.rs:QuiverPlot", "src/pylib/libplot.rs:quiver_plot", "up4/plotting.py"]}
{"id": "C87", "title": "The table behind a grid plot", "statement": "Plotting a grid hands over, for every cell of the plane, its centre and its number, each cell once and in matching order.", "quantifier": "every grid, axis and layer", "why_tests_cant": "Order and pairing must be right for every shape.", "anchors": ["src/pylib/libgrid.rs:plot"]}
{"id": "C88", "title": "Scalar maps and contours show the field", "statement": "A scalar map or contour shows at each cell position the number of that cell, or the mean over the depth, and the contour levels run from the lowest to the highest number shown.", "quantifier": "every grid, axis, layer and cell", "why_tests_cant": "Must hold for all shapes and all contents including NaN cells.", "anchors": ["src/plotting/plotting_2d/scalar_map.rs:ScalarMap", "src/plotting/plotting_2d/scalar_contour.rs:ScalarContour"]}
{"id": "C89", "title": "Parity maps and parity plots compare like with like", "statement": "A parity map shows at each cell the difference between the two grids in that same cell; comparing a field with itself shows zero everywhere. A parity plot pairs the numbers of the same cell, and for scalar grids its diagonal spans all the points.", "quantifier": "every pair of grids of the same shape", "why_tests_cant": "The pairing of cells must hold for all shapes.", "anchors": ["src/plotting/plotting_2d/parity_map.rs:ParityMap", "src/plotting/plotting_2d/parity_contour.rs:ParityContour", "src/plotting/plotting_2d/parity_plot.rs:ParityPlot"]}
{"id": "C90", "title": "Arrows are drawn as documented", "statement": "Each arrow is drawn as a straight shaft from its start along its components, with two barbs of 30 percent of its length at 20 degrees on either side of the shaft, meeting at the tip.", "quantifier": "every arrow, in exact arithmetic", "why_tests_cant": "A statement about all directions and lengths.", "anchors": ["src/plotting/plotting_2d/quiver.rs:Arrow", "src/plotting/plotting_2d/quiver.rs:create_quiver_arrows"]}
{"id": "C91", "title": "Arrow size limits hold", "statement": "With a maximum size no arrow is longer than it and shorter arrows keep their length; with a minimum size no nonzero arrow is shorter; with fitted modes the longest arrow is half a cell or one cell; directions never change.", "quantifier": "every field and size argument, in exact arithmetic", "why_tests_cant": "A statement about all vector fields.", "anchors": ["src/plotting/plotting_2d/quiver.rs:bound_max", "src/plotting/plotting_2d/quiver.rs:bound_min", "src/plotting/plotting_2d/quiver.rs:bound_half_node", "src/plotting/plotting_2d/quiver.rs:bound_full_node"]}
{"id": "C92", "title": "Arrow colours follow the speed", "statement": "Each arrow is coloured by its speed before scaling, placed linearly between the slowest and the fastest arrow of the plot.", "quantifier": "every field that is not uniform, in exact arithmetic", "why_tests_cant": "A statement about all fields.", "anchors": ["src/plotting/plotting_2d/quiver.rs:create_quiver_traces"]}
{"id": "C93", "title": "Unit vector plots show directions only", "statement": "In a unit vector plot every arrow with a nonzero velocity has the same length and keeps its direction.", "quantifier": "every vector field, in exact arithmetic", "why_tests_cant": "A statement about all fields.", "anchors": ["src/plotting/plotting_2d/unit_vector.rs:UnitVectorPlot"]}
{"id": "C94", "title": "Plot arguments are checked", "statement": "A plot is refused exactly when its size arguments do not fit the documented mode (missing, surplus, negative, swapped); asking for a layer the grid does not have ends in an error and never in a plot of another layer, except that scalar_map takes the n largest 64-bit numbers as the n layers again (2^64 - 1 is the last). Parity plots look at axis, selection and index only: they are refused when one of these is wrong, and a colour map or mode given with them is neither checked nor used.", "quantifier": "every combination of arguments", "why_tests_cant": "The combinations are unbounded.", "anchors": ["up4/plotting.py", "src/pylib/libplot.rs:quiver_plot"]}
{"id": "C95", "title": "Depth averages and parity along the second axis use the right positions", "statement": "Plots looking along the second axis place their cells at the grid positions of the first and third axes.", "quantifier": "every grid", "why_tests_cant": "Quantifies over every input; the code violates it only for some.", "anchors": ["src/plotting/plotting_2d/quiver.rs:QuiverPlot", "src/plotting/plotting_2d/parity_map.rs:ParityMap"]}
{"id": "C96", "title": "Unit vector plots accept the documented sizes", "statement": "Every documented combination of scaling mode and sizes is accepted by unit vector plots.", "quantifier": "every documented argument combination", "why_tests_cant": "Quantifies over every input; the code violates it only for some.", "anchors": ["up4/plotting.py", "src/pylib/libplot.rs:unit_vector_plot"]}
{"id": "C97", "title": "Degenerate fields can be plotted", "statement": "A plane of a single cell, a cell at rest and a field of uniform speed give well defined arrows and colours.", "quantifier": "every vector field", "why_tests_cant": "Quantifies over every input; the code violates it only for some.", "anchors": ["src/plotting/plotting_2d/quiver.rs:create_quiver_arrows", "src/plotting/plotting_2d/quiver.rs:bound_min"]}
{"id": "C98", "title": "The diagonal of a vector parity plot spans its points", "statement": "The diagonal of a parity plot of vector grids reaches from the smallest to the largest number shown, whichever component it belongs to.", "quantifier": "every pair of vector grids", "why_tests_cant": "Quantifies over every input; the code violates it only for some.", "anchors": ["src/plotting/plotting_2d/parity_plot.rs:ParityPlot"]}
{"id": "C99", "title": "A Cartesian grid made from a dataset covers its recorded range", "statement": "Grid(data, num_cells) yields an empty grid with that many cells whose limits are the recorded minimum and maximum position: every position in the recorded box, boundary included, is inside and has a valid cell, so a number field over that grid counts every selected sample, and the counts add up to their number.", "quantifier": "every recorded range, cell numbers, selector and dataset whose positions lie in the recorded range", "why_tests_cant": "Ranges over all doubles on and inside a box, including its rounded upper boundary.", "anchors": ["up4/grid.py:Grid", "src/pylib/libgrid.rs:cartesian3d_from_data", "src/functions.rs:numberfield"]}
{"id": "C100", "title": "A Cartesian grid made from a converted file contains every position written", "statement": "After converting csv, vtk or per-timestep csv input, Grid(data, num_cells) contains every written position, and gives it a valid cell, provided that along no axis the first written value is the strict maximum.", "quantifier": "every input accepted by the converters in which no axis starts at its strict maximum", "why_tests_cant": "Ranges over every table or file series and every position in it.", "anchors": ["up4/grid.py:Grid", "src/converter.rs", "src/converter/csv_modes"]}
{"id": "C101", "title": "Grid honours its arguments or raises", "statement": "Grid with explicit num_cells yields exactly the grid of the asked style, cell numbers and limits (limits argument first, then xlim/ylim/zlim, then the data's range); nonnegative limits and ordered ranges are accepted; unknown styles, missing or conflicting limits, reversed ranges and lists of wrong length raise; the only way to panic is a limits list whose length is not six.", "quantifier": "every combination of arguments", "why_tests_cant": "Ranges over every combination of eight optional arguments with arbitrary numbers.", "anchors": ["up4/grid.py:Grid", "src/pylib/libgrid.rs"]}
{"id": "C102", "title": "A cylindrical grid made from a dataset is the cylinder around the recorded box", "statement": "Grid(data, num_cells, grid_style='cylindrical') contains exactly the positions between the recorded heights whose distance from the vertical line through the middle of the recorded box is at most the larger half extent, and gives each of them a valid cell.", "quantifier": "every recorded range with positive extents, cell numbers >= 1 and position, in exact arithmetic with true polar coordinates", "why_tests_cant": "Ranges over all real positions, boundary included.", "anchors": ["up4/grid.py:Grid", "src/pylib/libgrid.rs:cylindrical3d_from_data"]}
{"id": "C103", "title": "A cell size gives the number of whole cells that fit", "statement": "With cell_size, the grid has along each axis the largest number of cells of that size that fits into the asked range, and exactly the asked limits.", "quantifier": "every positive cell size and combination of arguments (not data and limits together), exact arithmetic", "why_tests_cant": "Ranges over all sizes, ranges and combinations of arguments.", "anchors": ["up4/grid.py:calc_num_cells"]}
{"id": "C104", "title": "Limits and cell sizes are honoured in every combination", "statement": "Any ordered limits can be given, with or without data, together with any positive cell size, and the grid then has the cells that fit.", "quantifier": "every combination of data, limits and cell size", "why_tests_cant": "Quantifies over every input; the code violates it only for some.", "anchors": ["up4/grid.py:Grid", "up4/grid.py:calc_num_cells"]}
{"id": "C105", "title": "remove_outliers follows its documented modes", "statement": "Mode 1 replaces outliers by zero, mode 2 by the threshold and mode 3 by the mean of the neighbours.", "quantifier": "every grid, threshold and mode", "why_tests_cant": "Quantifies over every input; the code violates it only for some.", "anchors": ["src/pylib/libgrid.rs:remove_outliers", "src/grid/cartesian_grid.rs:outlier_removal"]}
{"id": "C106", "title": "Grids made from data contain every recorded particle", "statement": "Grid(data, num_cells), Cartesian or cylindrical, made from any converted file contains every recorded position.", "quantifier": "every converted file and recorded position", "why_tests_cant": "Quantifies over every input; the code violates it only for some.", "anchors": ["up4/grid.py:Grid", "src/converter.rs", "src/pylib/libgrid.rs"]}
{"id": "C107", "title": "Velocities computed for every particle of a CSV file with several particles", "statement": "Converting a CSV file with several particles that has no velocity columns, with velocity computation on and interpolation off: in the 'id_line' mode every id becomes one particle (ids ascending) whose lines, in order of time, are those of that id from the fifth to the fourth last, with the recorded times and positions, and whose velocity at line k is the slope, at the time of line k+1, of the quadratic fits to the nine lines around k; an id with fewer than nine lines makes the conversion fail. In the 'chain' mode the same holds of every trajectory of at least ten lines that another one follows (windows of seven lines from 200000 lines on). The conversion succeeds exactly if every resulting particle starts with a numeric velocity and has not too many lines without progress in time.", "quantifier": "all tables with NaN-free times, all column selections, all numbers of particles and lines, any fitting routine that always answers", "why_tests_cant": "Ranges over all tables, all interleavings of ids and all lengths; a test fixes one file.", "anchors": ["src/converter/csv_modes/csv_multi_chain.rs: csv_multi_chain", "src/converter/csv_modes/csv_multi_idline.rs: csv_multi_idline", "src/converter/convertertools.rs: velocity_polynom", "src/converter/convertertools/velocity_paralell.rs: velocity_polynom_parallel"]}
{"id": "C108", "title": "Resampling plus velocities for every particle of a CSV file with several particles", "statement": "With interpolation and velocity computation both on, every particle (id, or trajectory of at least ten lines that another one follows) is first resampled to exactly n samples, n being the number of lines of the longest particle: the first and last samples are the particle's first and last lines, sample k between them lies at time k*T/n (T the latest time) on a chord between two of its lines, or is blank (NaN position); then velocities are fitted to windows of nine of these samples. Whatever the conversion writes is exactly this; it does write it when the resulting times do not fall and the particles are acceptable; it fails if no id has nine lines.", "quantifier": "all tables with NaN-free times, all column selections, all numbers of particles and lines, any fitting routine that always answers", "why_tests_cant": "Ranges over all tables and all combinations of particle lengths and durations.", "anchors": ["src/converter/csv_modes/csv_multi_chain.rs: csv_multi_chain", "src/converter/csv_modes/csv_multi_idline.rs: csv_multi_idline", "src/converter/convertertools.rs: velocity_polynom", "src/converter/convertertools/velocity_paralell.rs: velocity_polynom_parallel", "src/converter/convertertools.rs: interpolate"]}
{"id": "C109", "title": "Lines lost at the ends of a trajectory, and very long trajectories", "statement": "In 'chain' mode with computed velocities, a trajectory of n lines yields a particle of n-8 samples if n < 200000 and of n-6 samples from 200000 on; with interpolation on as well, a file that contains a followed trajectory of 200000 lines or more cannot be converted.", "quantifier": "all chained files with NaN-free times, of any length", "why_tests_cant": "The threshold is far beyond the size of test files and the claim is about every length on both sides of it.", "anchors": ["src/converter/csv_modes/csv_multi_chain.rs: csv_multi_chain", "src/converter/csv_modes/csv_multi_idline.rs: csv_multi_idline", "src/converter/convertertools.rs: velocity_polynom", "src/converter/convertertools/velocity_paralell.rs: velocity_polynom_parallel"]}
{"id": "C110", "title": "Converter.vtk stores the particles of every file", "statement": "Converter.vtk(filenames, timestep, outname, filter, field names): if the filter mentions .vtk the files are read as legacy poly data, else if it mentions .vtu as an XML unstructured grid, else if it mentions .vtp as XML poly data. If every file has the named id, type, velocity and radius (or diameter) fields, the output has one timestep per file, at time (number captured by the filter) * timestep, holding exactly the particles of that file sorted by id with ties in file order; XML pieces are concatenated; a diameter field takes precedence over the radius field and is halved. If the times are not in order the conversion fails. A filter that mentions none of the extensions writes nothing.", "quantifier": "all lists of files, contents, field names, filters, timesteps; any numeric type of the stored buffers", "why_tests_cant": "Ranges over all files, numbers of pieces and orders of ids.", "anchors": ["src/pylib/libconv.rs: PyConverter::vtk", "src/converter.rs: LegacyVTKConverter::write_hdf5_from_files, XMLVTKConverter::write_hdf5_from_files", "src/converter/xmltools.rs: get_field, get_positions", "src/converter/legacytools.rs: get_field, get_positions"]}
{"id": "C111", "title": "A missing VTK field makes the conversion fail", "statement": "If one of the files lacks the velocity, id, type or radius (respectively diameter) field that the converter was told to use, Converter.vtk fails; it never completes with invented or shifted values, whatever the other files contain and wherever in the list that file is. The same holds if one of the files cannot be read or is of another kind than the one the filter names.", "quantifier": "all lists of files, all contents, all field names, legacy and XML", "why_tests_cant": "Ranges over all positions of the defective file and all contents of the others.", "anchors": ["src/pylib/libconv.rs: PyConverter::vtk", "src/converter.rs: LegacyVTKConverter::write_hdf5_from_files, XMLVTKConverter::write_hdf5_from_files", "src/converter/xmltools.rs: get_field, get_positions", "src/converter/legacytools.rs: get_field, get_positions", "src/converter/convertertools.rs: sort_by_array"]}
{"id": "C112", "title": "Folder conversion does not depend on the order in which the folder is listed", "statement": "Converter.vtk_from_folder gives exactly the result of Converter.vtk on those files of the folder whose path ends in .vtk and does not mention boundingBox, in natural order of their names, whatever order the operating system lists them in and whatever else is in the folder.", "quantifier": "all folders, all listing orders, any strict total order as the natural order", "why_tests_cant": "The listing order is up to the file system; a test sees one.", "anchors": ["src/pylib/libconv.rs: PyConverter::vtk_from_folder", "src/converter.rs: write_hdf5_from_folder (legacy and XML)"]}
{"id": "C113", "title": "vtk_from_folder works for .vtu and .vtp files", "statement": "Converter.vtk_from_folder with a filter for .vtu (or .vtp) files converts the .vtu (.vtp) files of the folder, as its documentation shows.", "quantifier": "all folders", "why_tests_cant": "Quantifies over every input; the code violates it only for some.", "anchors": ["src/pylib/libconv.rs: PyConverter::vtk_from_folder", "src/converter.rs: write_hdf5_from_folder (legacy and XML)"]}
{"id": "C114", "title": "The CSV entry points pass their arguments on", "statement": "Converter.csv, csv_multi and csv_multi_files read the text with the first characters of delimiter and comment and hand table, columns, flags, radius and window size unchanged to the conversion; Converter.csv refuses an even window size; a text that is no table with these characters, or an empty delimiter or comment string, is refused.", "quantifier": "all texts, arguments and readers", "why_tests_cant": "Ranges over all texts and argument combinations.", "anchors": ["src/pylib/libconv.rs: PyConverter::csv, csv_multi, csv_multi_files", "src/converter.rs: csv_converter, csv_multi_converter"]}
{"id": "C115", "title": "The CSV converters work with their default arguments", "statement": "Converter.csv(filename, outname) and Converter.csv_multi(filename, outname) convert a well-formed CSV file with columns t, x, y, z.", "quantifier": "all well-formed files", "why_tests_cant": "Quantifies over every input; the code violates it for all, but only with the default arguments.", "anchors": ["src/pylib/libconv.rs: PyConverter::csv, csv_multi, csv_multi_files", "src/converter.rs: csv_converter, csv_multi_converter"]}
{"id": "C116", "title": "Earlier calls leave no trace in a Data object", "statement": "Whatever was done with a Data object before (any sequence of calls, also calls that failed or were interrupted between two reads, and reading one timestep past the end as Python's for does), every method that asks for timesteps the file has returns exactly what it would return on a file just opened; only the last set_time matters.", "quantifier": "all files of any size, both layouts, both builds; all histories of requests; all calls and arguments", "why_tests_cant": "Ranges over all histories, interruption points and following calls; state lives in buffers that only wrap for files above 20000 timesteps.", "anchors": ["src/pylib.rs: PyData (all methods)", "src/datamanager/pdata.rs, src/datamanager/tdata.rs: get_timestep, setup_buffer, get_timestep_buffer, update, update_extra"]}
{"id": "C117", "title": "The layout of a file does not change the answers", "statement": "A particle-ordered and a time-ordered file recording the same data give the same answer (the same value, or both fail) to every method and every argument, whatever was requested from either before; for methods that compare pairs of timesteps (dispersion, occupancy, homogeneity, mean squared displacement) if the file has at most 20000 timesteps.", "quantifier": "all pairs of files with the same content, all histories on both sides, all calls", "why_tests_cant": "Ranges over all contents, histories and calls; the two readers are separate code.", "anchors": ["src/pylib.rs: PyData (all methods)", "src/datamanager/pdata.rs, src/datamanager/tdata.rs: get_timestep, setup_buffer, get_timestep_buffer, update, update_extra"]}
{"id": "C118", "title": "Every analysis sees exactly the file, at every point of a session", "statement": "Whatever was done with a Data object before, an analysis started now goes through exactly the timesteps recorded in the file: as many as the file says, in order, each with the recorded particles, positions, velocities and attributes.", "quantifier": "all files of both layouts, any number of timesteps, both builds; all histories of requests, including failed and interrupted ones", "why_tests_cant": "Ranges over all histories and file sizes; buffer switches only happen above 20000 timesteps.", "anchors": ["src/datamanager/pdata.rs, src/datamanager/tdata.rs: get_timestep, update", "src/functions.rs: numberfield, vectorfield"]}
{"id": "C119", "title": "Particle counts are right from the original files to the number field", "statement": "Convert original files (a folder of VTK files, a single-particle csv file, or one csv file per timestep), open the result, do anything with it, then ask for the number field: each cell of any Cartesian grid holds the number of recorded positions of the original files that lie in that cell. With the grid made from the file, the cells add up to the number of recorded positions (if the first position is not the highest on some axis: C100).", "quantifier": "all input files, all histories of requests on the opened file, all Cartesian grids, both builds", "why_tests_cant": "Composes conversion, sorting by id, buffered reading, selection and cell lookup for every input, history and grid.", "anchors": ["src/converter.rs: vtk, vtk_from_folder", "src/converter.rs: csv_converter", "src/converter/csv_modes/csv_multi_file_time_step.rs", "src/datamanager: PData::new, TData::new", "src/functions.rs: numberfield", "up4/grid.py: Grid"]}
{"id": "C120", "title": "A file written by the multi-particle csv converter can be opened", "statement": "If csv_multi converts a table without an error, the resulting file can be opened.", "quantifier": "all tables and column choices for which csv_multi succeeds", "why_tests_cant": "Quantifies over every input; the code violates it only for some.", "anchors": ["src/converter/csv_modes/csv_multi_idline.rs: csv_multi_idline, csv_multi_chain", "src/datamanager/pdata.rs: PData::new, update"]}
{"id": "C121", "title": "Aligning two data sets changes the comparison", "statement": "After Comparison::align on two data sets, the comparer is marked as aligned and its two grids are placed at the best offset.", "quantifier": "all pairs of data sets, all grids, all arithmetic", "why_tests_cant": "Quantifies over every input: the fields are private and align only prints.", "anchors": ["src/comparison.rs: Comparison::compare, Comparison::align"]}
{"id": "C122", "title": "Aligning works for any two data sets", "statement": "Comparison::align finishes for any two readable data sets and any Cartesian grid.", "quantifier": "all pairs of data sets of finite times and up to 2^53 positions, all Cartesian grids", "why_tests_cant": "Quantifies over every input; the code violates it only for some.", "anchors": ["src/comparison.rs: align, make_grid, binary_threshold"]}
{"id": "C123", "title": "Aligning prints the mismatch of every offset and the best offset so far", "statement": "When Comparison::align finishes, it has tried one million offsets, -50..49 hundredths of half the width of the first data set along each axis, and for each of them printed the number of cells (of 100x100x100) that are dense in exactly one of the two data sets, together with the first offset so far for which that number is least. A cell is dense if it contains more positions than the occupied cell of rank 10000. On cylindrical grids, too, each line compares number fields on two grids of the kind of the grid given, with 100x100x100 cells.", "quantifier": "all pairs of data sets of finite times and up to 2^53 positions, all Cartesian grids", "why_tests_cant": "A search over a million offsets with running minimum, for every data set; tests see only a few.", "anchors": ["src/comparison.rs: align, binary_threshold", "src/functions.rs: numberfield"]}
{"id": "C124", "title": "The two boxes that align compares have the same size and contain their data, whatever the units", "statement": "The boxes of the two grids that Comparison::align compares start at the lower corner of their data, have along each axis the width of the wider data set (in the units of each data set) and contain all their data, also if one data set is in metres and the other one in millimetres.", "quantifier": "all pairs of data sets, exact arithmetic", "why_tests_cant": "Quantifies over every input; the code violates it only for data sets in different units.", "anchors": ["src/comparison.rs: align, make_grid"]}
{"id": "C125", "title": "Every Data method answers from the recorded timesteps, its own arguments and the last set_time", "statement": "At any point of a session with an object of the Python class Data, opened on a particle-position or a trajectory file, whatever was called before: each method returns the answer its documentation describes, computed from the timesteps recorded in the file, from its own arguments (each in its own place) and from the time window of the last set_time, and the data it reads stays as recorded.", "quantifier": "all files, all sequences of earlier calls, all arguments of each method", "why_tests_cant": "Ranges over every call history and every argument; a buffer left in a wrong state by an earlier call or an argument passed in the wrong place shows only for some of them.", "anchors": ["src/pylib.rs: PyData methods", "src/datamanager.rs", "src/functions.rs"]}
{"id": "C126", "title": "A conversion that fails or is interrupted never leaves a file that opens", "statement": "If a conversion (one CSV, several particles in one CSV, VTK files, one CSV per timestep) panics, or the program is stopped between any two writes to the output file, then afterwards the output file is either untouched or cannot be opened by Data(...), PData or TData; a partly written file is never read as if it were complete.", "quantifier": "all inputs, settings and earlier contents of the output file; every point between two HDF5 calls at which the program stops", "why_tests_cant": "Quantifies over crash points and over every input that makes a conversion fail half way.", "anchors": ["src/converter.rs: csv_converter, csv_multi_converter, write_hdf5_from_files", "src/converter/csv_modes/csv_multi_idline.rs: csv_multi_idline", "src/converter/csv_modes/csv_multi_chain.rs: csv_multi_chain", "src/converter/csv_modes/csv_multi_file_time_step.rs: csv_multi_file_time_step", "src/datamanager/pdata.rs: PData::new, global_stats", "src/datamanager/tdata.rs: TData::new, global_stats", "src/pylib.rs: PyData::new"]}
{"id": "C127", "title": "The file a finished conversion writes is the one that is opened: every name written is the name read", "statement": "After a conversion that returns, opening the output file gives a reader of the right kind (by the recorded type) whose header and whose particles or timesteps are, number by number, the ones the converter computed; the only thing changed on the way is the sample rate, which is stored as an integer. If the conversion computes nothing (unknown mode) the output file is untouched.", "quantifier": "all inputs and settings of the four converters, any number of particles and timesteps, all earlier contents of the output file", "why_tests_cant": "Ranges over any number of groups whose names are made from numbers, and over all contents; a name that clashes or is misspelt in one converter only shows for that converter and that dataset.", "anchors": ["src/converter.rs: csv_converter, csv_multi_converter, write_hdf5_from_files", "src/converter/csv_modes/csv_multi_idline.rs: csv_multi_idline", "src/converter/csv_modes/csv_multi_chain.rs: csv_multi_chain", "src/converter/csv_modes/csv_multi_file_time_step.rs: csv_multi_file_time_step", "src/datamanager/pdata.rs: PData::new, global_stats", "src/datamanager/tdata.rs: TData::new, global_stats", "src/pylib.rs: PyData::new"]}
{"id": "C128", "title": "Repeating a conversion after an interrupted attempt gives the same file", "statement": "Running a conversion again after an attempt that was interrupted at any point has the same result, on the output file and to the caller, as running it once without the interrupted attempt.", "quantifier": "all inputs and settings, all earlier contents of the output file, all points of interruption", "why_tests_cant": "Quantifies over crash points and over what they leave behind.", "anchors": ["src/converter.rs: csv_converter, csv_multi_converter, write_hdf5_from_files", "src/converter/csv_modes/csv_multi_idline.rs: csv_multi_idline", "src/converter/csv_modes/csv_multi_chain.rs: csv_multi_chain", "src/converter/csv_modes/csv_multi_file_time_step.rs: csv_multi_file_time_step"]}
{"id": "C129", "title": "A failed conversion leaves an earlier output file usable", "statement": "If the output file already holds the result of an earlier conversion and a new conversion to it fails or is interrupted, the earlier result can still be opened.", "quantifier": "all earlier files, all failing inputs, all points of interruption", "why_tests_cant": "Quantifies over every input and crash point; the code violates it for every failure after the first write.", "anchors": ["src/converter.rs: csv_converter, csv_multi_converter, write_hdf5_from_files", "src/converter/csv_modes/csv_multi_idline.rs: csv_multi_idline", "src/converter/csv_modes/csv_multi_chain.rs: csv_multi_chain", "src/converter/csv_modes/csv_multi_file_time_step.rs: csv_multi_file_time_step"]}
{"id": "C130", "title": "In doubles, the cell of a position is the cell of exact arithmetic up to a rounding allowance", "statement": "On a Cartesian grid with finite limits whose length does not overflow, a position is inside exactly when it lies between the limits; the cell the lookup returns contains the position up to 2^-50 of the length of each axis (cells of the width the lookup uses), and along each axis the index differs from the index of exact real arithmetic only when the position lies within that allowance of a border between the two cells, and then by one.", "quantifier": "all limits and positions in doubles (subnormal, huge, of very different magnitude), all cell counts up to 2^53", "why_tests_cant": "It is a statement about the rounding error of every double; tests try a few round numbers.", "anchors": ["src/grid/cartesian_grid.rs: cell_id, is_inside, new, get_xpositions, get_ypositions, get_zpositions"]}
{"id": "C131", "title": "In doubles, the published cell centres are correct, increasing and looked up consistently", "statement": "The published centres lie inside the limits and within 2^-50 of the sum of the absolute limits of the middle of their cell; when the cells are not too small for the magnitude of the limits they are strictly increasing, and each centre is looked up in the cell exact arithmetic gives (C06), only the middle centre of an odd number of cells, which lies exactly on a border, may go to either side.", "quantifier": "all limits in doubles at least 2^-900 apart, all cell counts up to 2^49, all cells", "why_tests_cant": "A statement about the rounding of every double and every number of cells.", "anchors": ["src/grid/cartesian_grid.rs: cell_id, is_inside, new, get_xpositions, get_ypositions, get_zpositions"]}
{"id": "C132", "title": "In doubles, slicing at a position gives a plane that contains it up to rounding", "statement": "Slicing a grid at a position between the limits of an axis returns the data of one plane of cells which contains the position up to 2^-50 of the length of the axis, or panics; it panics only when the position is within that allowance of the upper limit.", "quantifier": "all well-formed grids (Cartesian and cylindrical), axes, positions in doubles", "why_tests_cant": "A statement about the rounding of every double.", "anchors": ["src/grid/cartesian_grid.rs: slice, slice_idx", "src/grid/cylindrical_grid.rs: slice, slice_idx"]}
{"id": "C133", "title": "In doubles, averages are the exact averages up to an explicit bound", "statement": "In each visited cell, the mean computed by adding the values in recording order and dividing by their number n differs from the exact mean of the recorded doubles by at most (n+1)/2^52 of the mean absolute value (plus 2^-1075), and is a finite number: for divide_by_weight after any history of additions, for each cell of velocityfield (for finite limits, whatever was recorded), for each component of vectorfield. The overall mean speed differs from the exact mean of the exact speeds by at most (n+9)/2^52 of it plus 2^-530.", "quantifier": "all histories, files, selections, grids and velocity limits, up to 2^52 samples, values up to 2^960 (velocities up to 2^500 for the mean speed)", "why_tests_cant": "Rounding errors accumulate with the number and order of the additions; the bound is for all sequences of doubles.", "anchors": ["src/grid/cartesian_grid.rs: add_value, divide_by_weight", "src/functions.rs: velocityfield, vectorfield, mean_velocity_showcase"]}
{"id": "C134", "title": "A vector field read from Python: arrays, slices and depth averages are those of its three components", "statement": "to_numpy of the field that vectorfield returns is three arrays of the grid's shape holding in each cell the mean of that velocity component over the recorded samples in the cell (NaN where nothing was seen), and cell_positions are the positions of the grid it was made on. slice(axis, k) returns the plane k of each array and refuses k past the end (up to 2^64 - n, from where the n planes repeat); slice_pos takes the same plane of all three; collapse returns in each column the mean velocity of all samples in the column.", "quantifier": "all recordings, grids, selections, axes, plane numbers and positions", "why_tests_cant": "It relates every sample of every recording to every cell of three arrays.", "anchors": ["src/pylib/libgrid.rs: PyVecGrid to_numpy, cell_positions, shape, slice, slice_pos, collapse", "src/grid/vector_grid.rs: VectorGrid"]}
{"id": "C135", "title": "Printing a grid shows the statistics of its visited cells", "statement": "str(grid) and repr(grid) show the cell counts, the limits, and the mean, standard deviation, minimum and maximum of the numbers in the grid; cells holding NaN (never visited) do not count.", "quantifier": "all grids and data", "why_tests_cant": "For every array of doubles, in particular with NaN at any place.", "anchors": ["src/pylib/libgrid.rs: PyGrid __str__, __repr__", "src/utilities.rs: nan_mean, nan_std"]}
{"id": "C136", "title": "Printing a vector field shows the statistics of its visited cells", "statement": "str(field) and repr(field) show the mean, the standard deviation, the minimum and the maximum of the velocities in the field, where cells holding NaN (never visited) do not count and all three components contribute.", "quantifier": "all vector fields", "why_tests_cant": "For every array of doubles, in particular with NaN at any place.", "anchors": ["src/pylib/libgrid.rs: PyVecGrid __str__, __repr__", "src/grid/vector_grid.rs: get_data"]}
{"id": "C137", "title": "Comparing two whole vector fields pairs equal cells and equal components; the differences are those named", "statement": "The parity plot of two whole vector fields (Rust API) has three times as many points as cells; point k n + i pairs component k of the reference in cell i with component k of the comparison in the same cell. That of two whole scalar grids has a point for each cell, which pairs the numbers of that cell in the reference and in the comparison, and its diagonal spans all numbers of the two. The differences of a parity map are, in each cell, reference minus comparison, that difference in percent of the reference, or its absolute value.", "quantifier": "all pairs of vector fields of equal shape, all pairs of planes", "why_tests_cant": "For every cell, component and value.", "anchors": ["src/plotting/plotting_2d/parity_plot.rs: from_vector_grids", "src/plotting/plotting_2d/parity_map.rs: delta_as_difference, delta_as_percent, delta_as_absolute_difference"]}
{"id": "C138", "title": "Asking from Python whether a point is in the grid, and for its cell", "statement": "is_inside([x, y, z]) on a Cartesian grid is true exactly when each coordinate lies between its limits; then cell_id returns a cell of the grid, otherwise it panics. A list of fewer than three numbers is refused; further numbers are ignored.", "quantifier": "all grids made by the constructor and all points in doubles", "why_tests_cant": "For every double, including NaN and infinities, and every grid.", "anchors": ["src/pylib/libgrid.rs: PyGrid is_inside, cell_id", "src/grid/cartesian_grid.rs: is_inside, cell_id"]}
{"id": "C139", "title": "The velocities of very long trajectories do not depend on the threads", "statement": "For a trajectory of 200000 rows or more the csv_multi converter computes the velocities in parallel. However the work is split and in whatever order the pieces run, the call ends, and its table is the one computed row by row in order; it panics exactly when one of the rows does.", "quantifier": "all tables, degrees, ways to split the work and interleavings of the workers", "why_tests_cant": "It ranges over every schedule of the thread pool.", "anchors": ["src/converter/convertertools/velocity_paralell.rs: velocity_polynom_parallel, to_array2", "src/converter/csv_modes/csv_multi_chain.rs: csv_multi_chain", "src/converter/csv_modes/csv_multi_idline.rs: csv_multi_idline"]}
{"id": "C140", "title": "Cylindrical grids in doubles are close to the exact ones", "statement": "A cylindrical grid built in doubles from limits of ordinary size has the outer radius of half the larger extent, ring boundaries whose squares are i/n of the square of that radius, and computed distances from the axis, all up to a few units of rounding (for the rings: per ring). Up to 2^20 rings the boundaries strictly increase. A position inside the grid whose computed distance does not exceed the last boundary is put in the ring whose boundaries enclose that distance and, up to a stated tolerance, in the sector and layer whose upper edges are nearest; adding a value there changes that cell alone. Every position whose exact distance from the axis is below the outer radius by 4n + 16 units of rounding, at an angle and height within the limits, is such a position.", "quantifier": "all cell counts up to 2^40 per axis, all finite limits of at most 2^470 in size that are at least 2^-470 apart, all finite positions up to that size, all grid contents, debug and release builds", "why_tests_cant": "It bounds the accumulated rounding of a square-root recurrence for every cell count and every pair of limits.", "anchors": ["src/grid/cylindrical_grid.rs: CylindricalGrid3D::new, to_cylindrical, is_inside, cell_id, add_value"]}
{"id": "C141", "title": "In doubles, the granular temperature is the exact one up to an explicit bound", "statement": "In each visited cell of a Cartesian grid without data, the square of the granular temperature differs from the exact variance of the recorded velocities (of the chosen component, or the mean over the three) by at most tol = (n+4)/2^49 of their mean square plus 2^-1000, for n samples, whenever it is a number at all; and it is one whenever the exact variance exceeds tol. (When it does not, the square root may be taken of a negative number: C39.)", "quantifier": "all recorded data, selections, modes and Cartesian grids, up to 2^46 samples with velocity components up to 2^450, debug and release builds", "why_tests_cant": "The one-pass formula cancels; how much of the result survives depends on every sum, for every order and number of samples.", "anchors": ["src/functions.rs: granular_temperature_field"]}
{"id": "C142", "title": "In doubles, dispersion is the exact one up to an explicit bound", "statement": "On a grid without data, dispersion returns in each cell with n >= 2 moves a finite number that differs from the unbiased variance of the exact end points, summed over the axes, by at most (n+4)/2^48 of the mean square of the end points' distance from the origin of coordinates plus 2^-900, with weight 1; cells with fewer moves hold 0 with weight 0. The second result is the average over the cells with at least two moves, up to (number of cells + 6)/2^52 of the average absolute value plus 2^-1000, if there is such a cell.", "quantifier": "all recorded data, selections, delays and grids, up to 2^46 samples and cells, coordinates up to 2^450, debug and release builds", "why_tests_cant": "The one-pass formula cancels; the bound is for all sequences of doubles, including the order of additions of ndarray's eight running sums.", "anchors": ["src/functions.rs: dispersion"]}
{"id": "C143", "title": "In doubles, the histogram's bins are the exact ones up to an explicit bound", "statement": "For limits 0 <= lo < hi that are at least bins*hi/2^40 apart, histogram returns bins+1 strictly increasing edges, each within hi/2^50 of its exact place, and counts that are exact for some assignment of the samples to bins such that a sample is in at most one bin; every sample farther than bins*hi/2^49 inside the exact limits of a bin is counted in it, no sample farther than that outside them is, and samples in no bin are at least as fast as hi, up to the same allowance.", "quantifier": "all recorded data without samples slower than lo, all selections, numbers of bins and limits, debug and release builds", "why_tests_cant": "The bin is found by a division by the rounded width, whose error grows with the number of bins; the bound is for all doubles.", "anchors": ["src/functions.rs: histogram"]}
{"id": "C144", "title": "In doubles, the Lacey index is the exact one up to an explicit bound", "statement": "lacey_mixing returns, for every timestep in the window but the last, a finite number within (n+16)/2^46 * (1+|I|) / (c(1-c)) of the exact index I of the recorded particles, for n cells and c the share of the first type, next to the time of the timestep.", "quantifier": "all recorded data, selections, types and Cartesian grids without data, of 2 to 2^46 cells, up to 2^53 particles, c(1-c) at least 2^-40, debug and release builds", "why_tests_cant": "Variance, roots squared again and two differences: cancellation depends on all the shares; the bound is for every number and arrangement of particles.", "anchors": ["src/functions/mixing.rs: lacey_mixing"]}
{"id": "C145", "title": "In doubles, the mean squared displacement is what ideal arithmetic gives, up to an explicit bound", "statement": "msd_field gives every cell exactly the number n of moves that start in it as weight, 0 as value without moves, and otherwise a finite value within (n+3)/2^50 relatively, plus (T+1) 2^-530, of T*T/n, where T is the exact total distance of these moves. msd returns for each of its steps delays a time within (|tmin|+|tmax|)/2^48 (plus 2^-1000) of the evenly spaced one, and, when some move starts in the grid, a finite value within (N+m+4)/2^50 relatively (plus (sum of T + 1) 2^-527) of the sum of T*T over the m cells divided by the number N of moves.", "quantifier": "all data sets with matching statistics, selections, delays and grids without data; up to 2^46 samples and cells, coordinates and delays up to 2^400, 2 to 2^46 steps, debug and release builds", "why_tests_cant": "Rounding errors of differences, squares, roots, sums and quotients add up over all samples: a bound must hold for every number and arrangement of moves.", "anchors": ["src/functions/mixing.rs: msd_field, msd"]}
{"id": "C146", "title": "Resampled rows interpolate between the neighbours of the nearest sample and stay close to the motion", "statement": "Let the sample times increase from 0 or later, the samples being at most twice as dense as the new time base. Then every resampled row up to the middle of the last gap lies on the straight line between the two neighbours of the sample nearest to its time (not counting the first), between the coordinates of the two; from the middle of the last gap on the rows are blank. If gaps are at most g (first sample at 0), a coordinate that changes no faster than V is off by at most V g, and one whose velocity changes no faster than A by at most A g^2. A row at the time of an inner sample shows the chord of its neighbours instead of the sample. If the samples are denser, row k uses no sample after number 2k+2 and is extrapolated when that one is earlier than the row.", "quantifier": "all tables of at least three rows with increasing times, all numbers of new rows, all motions (Lipschitz or differentiable with Lipschitz velocity), ideal arithmetic", "why_tests_cant": "The row used for a new time depends on all earlier rows (the anchor only moves forward, by at most two); the accuracy is a claim about all motions.", "anchors": ["src/converter/convertertools.rs: interpolate", "src/converter/convertertools.rs: interpolate_step"]}
{"id": "C147", "title": "Velocities computed from noisy positions of a smooth motion are accurate", "statement": "Let the sample times increase and the positions in the table each be within eta of a motion whose acceleration changes by at most J per time, and let the polynomial fit of degree two be a least-squares fit. With a window of s = 5 or more samples, spanning the times ta to tb, the velocity given for the middle sample (time t) differs from the true velocity at the following sample (time u) by at most 2 (eta + J (tb-ta)^3) sqrt(s) (1/(u-ta) + 1/(tb-u)), and from the true velocity at t by at most that plus K (u-t), with K a bound on the acceleration. A least-squares fit of degree two reproduces quadratic motions exactly.", "quantifier": "all tables with increasing times, all odd windows of five or more samples, all motions, all position errors, all least-squares fits (one is constructed), ideal arithmetic", "why_tests_cant": "An accuracy claim over all motions and all measurement errors.", "anchors": ["src/converter/convertertools.rs: velocity_polynom"]}
{"id": "C148", "title": "Resampling and differentiating samples of a smooth motion gives its positions and velocities", "statement": "Take samples of a motion with accelerations up to K that change by at most J per time, starting at time 0, gaps at most g, at most twice as dense as the new time base of spacing dt. Resample them and compute velocities by least squares with windows of s = 2h+1 >= 5 rows, as the csv converters do. Every output row i whose window ends before the middle of the last gap has the time (i+h) dt, a position within K g^2 of the motion at that time and a velocity that differs from the motion's at (i+h+1) dt by at most 2 (K g^2 + J ((s-1)dt)^3) sqrt(s) (1/((h+1)dt) + 1/((h-1)dt)), and from the motion's at its own time by at most K dt more.", "quantifier": "all motions, all tables of at least three samples, all numbers of new rows, all odd windows from five, all output rows before the last gap, ideal arithmetic", "why_tests_cant": "An accuracy claim over all motions, sample times and resampling densities through two processing stages.", "anchors": ["src/converter/convertertools.rs: interpolate", "src/converter/convertertools.rs: velocity_polynom", "src/converter.rs: csv_converter"]}
{"id": "C149", "title": "In doubles, fields on cylindrical grids return just when no sample lies beyond the last ring, with exact counts and accurate means", "statement": "On a cylindrical grid of up to 2^40 cells per axis and moderate limits, the number, velocity, vector and granular temperature fields of any recorded data return if every observed sample the grid accepts has a computed radius not above the outer boundary of the last ring; with up to 2^20 rings the number and temperature fields panic otherwise. When they return, every cell of the number field holds the exact number of observed samples looked up there and the cells sum to the number of observed samples inside, and every cell of the velocity and vector fields that received samples is within rounding error of their exact mean.", "quantifier": "all cylindrical grids with moderate limits, all recorded data, all selections, modes and velocity limits, all cells", "why_tests_cant": "Whether a call survives depends on where accumulated rounding of the ring boundaries leaves the last one, for every grid and every sample; the values are claims about all sums of doubles.", "anchors": ["src/functions.rs: numberfield", "src/functions.rs: velocityfield", "src/functions.rs: vectorfield", "src/functions.rs: granular_temperature_field", "src/grid/cylindrical_grid.rs: cell_id"]}
{"id": "C150", "title": "In doubles, which plane a slice at any position outside the limits is", "statement": "Slicing a grid at a position before the lower limit of the axis, or at NaN, returns the first plane; at or beyond the upper limit, up to 512 lengths of the axis from the lower limit, it panics; at infinity and from 2^66 lengths on it returns the last plane. It never panics for a position lower than the upper limit by more than 2^-50 of the length of the axis.", "quantifier": "all well-formed grids (Cartesian and cylindrical) with up to 2^53 cells along the axis, axes, positions in doubles including NaN and the infinities", "why_tests_cant": "The outcome depends on saturating casts and wrap-around of indices for every double.", "anchors": ["src/grid/cartesian_grid.rs: slice, slice_idx", "src/grid/cylindrical_grid.rs: slice, slice_idx", "src/pylib/libgrid.rs: slice_pos"]}
{"id": "C151", "title": "CSV columns can be counted from the end of the row", "statement": "In a CSV whose rows all have m entries, giving column c - m instead of c for any of the columns changes nothing in what any CSV converter writes (one particle, several particles in both modes, one file per timestep); a column below -m or from m on, and a file without rows, are refused.", "quantifier": "all tables with rows of one length, all column lists and conversion options", "why_tests_cant": "It relates every table and every list of columns.", "anchors": ["src/converter.rs: csv_converter", "src/converter/csv_modes/csv_multi_chain.rs: csv_multi_chain", "src/converter/csv_modes/csv_multi_idline.rs: csv_multi_idline", "src/converter/csv_modes/csv_multi_file_time_step.rs: csv_multi_file_time_step"]}
{"id": "C152", "title": "Refused and out-of-range reads do no lasting harm", "statement": "After any sequence of reads by index, some of which may have been past the end of the file or refused with an exception, reading a timestep that the file has returns that timestep, for both file kinds and in every build.", "quantifier": "all files, all sequences of indices, all later indices in range, both file kinds and build profiles", "why_tests_cant": "The harm is in the state that an arbitrary sequence of failed reads leaves behind.", "anchors": ["src/datamanager/pdata.rs: get_timestep, update", "src/datamanager/tdata.rs: get_timestep, update", "src/pylib.rs: __getitem__"]}
{"id": "C153", "title": "Depth averages are accurate in doubles", "statement": "The depth average of a grid over one or two axes is, in each element, the weighted mean of the cells it averages over up to a few rounding errors per cell, and NaN exactly where nothing was added to any of them. The depth average of a velocity field or of a vector field is the mean of all the samples recorded in the cells it averages over, up to rounding errors proportional to the number of samples and cells; cells nothing was recorded in do not pull it to zero or make it NaN.", "quantifier": "all grids (Cartesian and cylindrical) whose weights are whole numbers or halves, all axes and pairs of axes, all recordings and selections, all numbers up to 2^900", "why_tests_cant": "The bound sums the rounding errors of products, sums and a quotient over any number of cells, on top of those of each cell's own mean; unit tests check a few values against a tolerance.", "anchors": ["src/grid/cartesian_grid.rs: collapse, collapse_two, collapse_weight", "src/grid/cylindrical_grid.rs: collapse, collapse_two, collapse_weight", "src/pylib/libgrid.rs: collapse", "src/functions.rs: velocityfield, vectorfield"]}
{"id": "C154", "title": "The occupancy field is accurate in doubles", "statement": "Every value of an occupancy field is a finite number, not negative, and the share of the counted time spent in the cell up to a few rounding errors per stay; the values add up to at most one up to rounding, and to one up to rounding when every counted stay ends inside the grid. If no time was counted at all every value is NaN.", "quantifier": "all data managers that read a recording of at least three timesteps, all grids, selections and minimum velocities, all stays of finite length with a total between 2^-900 and 2^1000", "why_tests_cant": "The bound adds the rounding errors of every addition to each cell over any number of stays, of the total and of the quotient; tests compare a few values with a tolerance.", "anchors": ["src/functions.rs: occupancyfield", "src/grid/cartesian_grid.rs: add_trajectory_value, cell_ids_in_trajectory", "src/grid/cylindrical_grid.rs: add_trajectory_value", "src/pylib.rs: occupancyfield"]}
{"id": "C155", "title": "The homogeneity index is accurate in doubles", "statement": "An occupancy field made on a new grid counts in each cell's weight exactly the visits to the cell, in halves. The homogeneity index is a finite number, not negative, whose square is the variance over the layers of the grid of the mean share of time per visit to the layer, up to a few rounding errors per counted stay and cell; layers nobody visited are left out of the sums.", "quantifier": "all data managers that read a recording of at least three timesteps, all new grids, selections and minimum velocities, up to 2^42 stays of finite length with a total between 2^-900 and 2^1000", "why_tests_cant": "The bound follows the rounding errors through running sums of times, a quotient, two weighted averages, a mean, a sum of squares and a square root over any number of stays and cells; tests compare a few values with a tolerance.", "anchors": ["src/functions.rs: homogenity_index, occupancyfield", "src/grid/cartesian_grid.rs: collapse_two, add_trajectory_value", "src/grid/cylindrical_grid.rs: collapse_two, add_trajectory_value", "src/pylib.rs: homogenity_index"]}
{"id": "C156", "title": "Mean and standard deviation are accurate in doubles", "statement": "The NaN-ignoring mean of an array differs from the exact mean of its numbers by at most (n+1)/2^52 of their mean absolute value, and the square of the NaN-ignoring standard deviation differs from their exact variance by at most (2n+12)/2^53 of that variance plus twice the square of the error of the mean: numbers far from zero with a small spread keep an accurate deviation. Both are finite and the deviation is not negative; for equal numbers it is at most about the error of the mean. The same holds of the mean and the deviation shown when a grid is printed.", "quantifier": "all arrays with between 1 and 2^46 numbers of magnitude up to 2^400 and any NaN between them, all grids", "why_tests_cant": "The bound covers every input and every rounding of n additions, subtractions and squares; tests compare a few arrays with a tolerance.", "anchors": ["src/utilities.rs: nan_mean, nan_std", "src/pylib/libgrid.rs: __str__"]}
{"id": "C157", "title": "Parts of a recording add up", "statement": "When the samples one selection lets through are those of two other selections with none in common, the number field of the first is, cell by cell, exactly the sum of the number fields of the two, and its mean velocity is the mean of the two weighted with their numbers of samples. Two neighbouring ranges of particle numbers [a, b] and [b+1, c], and two disjoint lists of one or at least three numbers, are such parts. Two neighbouring time windows [a, b] and [b, c] count a sample exactly at b twice: their number fields add up to that of [a, c] plus that of the window [b, b]. The number field of two recordings one after the other is the sum of theirs.", "quantifier": "all recordings, grids, selections, windows and lists of particle numbers; up to 2^53 samples in a cell", "why_tests_cant": "Additivity is a statement about every way of splitting every recording; a test splits one file once.", "anchors": ["src/functions.rs: numberfield, velocityfield", "src/particleselector.rs: is_valid, timestep_valid, set_time"]}
{"id": "C158", "title": "The order of the samples does not matter", "statement": "Two recordings with the same samples in a different order - particles in another order, timesteps in another order, samples divided over timesteps differently - have the same number field, bit for bit, and the same velocity field in ideal arithmetic. In doubles the two velocity fields differ by at most twice the rounding error allowed to a mean; they are not always the same bit for bit.", "quantifier": "all pairs of recordings whose samples are permutations of each other, all selections and grids", "why_tests_cant": "Ranges over all permutations of all recordings.", "anchors": ["src/functions.rs: numberfield, velocityfield"]}
{"id": "C159", "title": "Units and origins do not matter", "statement": "In ideal arithmetic on Cartesian grids: when positions and grid limits are changed on each axis to a*x+b with a > 0, times and the time window likewise, and velocities and velocity limits are multiplied by k > 0, the number field is the same, every mean velocity (all modes) is multiplied by k, its number of samples is the same, and the cell centres move along with the limits.", "quantifier": "all recordings, limits, numbers of cells, selections, modes, factors and offsets", "why_tests_cant": "Ranges over all changes of unit and origin and all recordings.", "anchors": ["src/functions.rs: numberfield, velocityfield", "src/grid/cartesian_grid.rs: cell_id, is_inside, new"]}
{"id": "C160", "title": "Exact changes of unit and origin keep every bit", "statement": "In doubles on Cartesian grids: when positions and limits are changed on each axis to 2^j*x+b and every new number is exactly a double, every position is in the same cell as before, and the number field and the velocity field are the same, bit for bit. A change by a factor of ten rounds and can move a position to the next cell.", "quantifier": "all positions, limits with finite widths, integers j, offsets b, recordings, selections, modes; NaN positions included", "why_tests_cant": "Ranges over all doubles and all such changes, subnormal differences included.", "anchors": ["src/grid/cartesian_grid.rs: cell_id, is_inside", "src/functions.rs: numberfield, velocityfield"]}
{"id": "C161", "title": "The fields agree with each other", "statement": "For one recording, selection and Cartesian grid: the number field is the number of samples behind each cell of the vector field; component x, y or z of the vector field is, bit for bit, the velocity field of that mode when its limits cut nothing; in ideal arithmetic the length of the vector field is at most the mean speed, and the mean speed is at most the root of that length squared plus three times the square of the granular temperature field; and when every particle in the time window is selected, lies in the grid and has a speed within the limits, the one mean velocity is the mean of the velocity field weighted with its numbers of samples.", "quantifier": "all recordings, selections, Cartesian grids, limits; the agreement of the fields in doubles for every cell, the two inequalities and the weighted mean in ideal arithmetic", "why_tests_cant": "Each is a relation between the results of different calls on every recording; a test compares numbers of one file.", "anchors": ["src/functions.rs: numberfield, velocityfield, vectorfield, granular_temperature_field, mean_velocity_showcase"]}
{"id": "C162", "title": "Mean velocities and granular temperatures in other orders, units and frames", "statement": "In ideal arithmetic: the vector field and the granular temperature field depend only on which samples there are, not on their order or their division into timesteps; in other units and origins (C159) both are multiplied by the factor of the velocities; when every particle is given an additional velocity w the vector field is shifted by w and the granular temperature does not change; the granular temperature of a cell is 0 exactly if all its samples have the same velocity; and when a selection consists of two others without common samples, N T^2 = N1 T1^2 + N2 T2^2 + N1 N2 / N |v1 - v2|^2 / 3 in every visited cell.", "quantifier": "all recordings, selections, grids (units, frames of the vector field and mixtures: Cartesian), modes, additional velocities, units; every visited cell", "why_tests_cant": "Each relates the results of calls on different recordings or selections, for all of them.", "anchors": ["src/functions.rs: vectorfield, granular_temperature_field"]}
{"id": "C163", "title": "Units and origins do not matter to the other analyses", "statement": "In ideal arithmetic, on Cartesian grids: when a recording, the limits of the grid and all thresholds are stated in other units and origins (C159), the concentrations, the Lacey indices and the occupancies are unchanged, the times of the Lacey indices and the circulation times are restated, the mean speed and the edges of the velocity histogram are multiplied by the factor of the velocities (the counts are unchanged), and with another unit of length and another origin the mean squared displacements and the dispersions of all cells and their mean are multiplied by the square of the factor. Other units of time are not harmless to displacements: the same particle moves 1/4 when recorded in seconds and 1 when recorded in milliseconds.", "quantifier": "all recordings, Cartesian grids, selections, particle types, thresholds, boundaries, bins, delays, changes of units with positive factors; all cells (occupancy: recordings in which some time is counted; concentration: cells with a particle of one of the types)", "why_tests_cant": "Relates two calls on two differently scaled recordings, for all recordings.", "anchors": ["src/functions/mixing.rs: concentration_field, lacey_mixing, msd_field", "src/functions.rs: occupancyfield, dispersion, histogram, mean_velocity_showcase", "src/functions/conditional.rs: circulation_time"]}
{"id": "C164", "title": "One CSV file per timestep without velocities", "statement": "Converter.csv_multi_files with four columns (id, x, y, z; its default) stores every file as the timestep of its place, at the time given for it, with its ids and positions in file order, and with every velocity component NaN: exactly what seven columns with NaN velocities give. Reading back gives these timesteps in any order of reads; the dimensions describe all positions; the mean velocities of the header are NaN.", "quantifier": "every list of files with at least one line each, every list of times at least as long, the four columns in any order, every order of reads", "why_tests_cant": "All files, columns and read orders.", "anchors": ["src/converter/csv_modes/csv_multi_file_time_step.rs: csv_multi_file_time_step", "src/pylib/libconv.rs: PyConverter::csv_multi_files", "src/datamanager/tdata.rs: TData::get_timestep"]}
{"id": "C165", "title": "Units and origins do not matter on cylindrical grids", "statement": "In ideal arithmetic, on cylindrical grids: when a recording and the limits of the grid are stated in other units and origins (one factor across the axis, another along it, any new origin, another unit and origin of time, another factor of the velocities), the rings, heights and centre of the grid are restated and its angles stay, every position is inside and in a cell exactly as before, the number field is the same in every cell, the mean velocities are multiplied by the factor of the velocities with the same numbers of samples, and, with the origin across the axis kept, the radial and vertical components of the vector field are multiplied by the factor of the velocities, the angular one by that factor over the factor of the lengths.", "quantifier": "all recordings, numbers of cells, limits, selections, velocity modes and windows, changes of units with positive factors, all cells and positions", "why_tests_cant": "Relates two calls on two differently scaled recordings, for all recordings.", "anchors": ["src/grid/cylindrical_grid.rs: new, to_cylindrical, is_inside, cell_id", "src/functions.rs: numberfield, velocityfield, vectorfield", "src/grid/vector_grid.rs: velocity_calculation"]}
{"id": "C166", "title": "Turning the vessel does not change rings and layers", "statement": "In ideal arithmetic: when every position and velocity of a recording is turned by one angle about the axis of a cylindrical grid, every position is inside exactly as before and in the same ring and the same layer, and for every ring and layer the number of particles over all its angular cells, the number of samples behind its mean velocities, and the sum of its velocities in the modes absolute, xy and z are the same; with the axis through the origin also the sums of the radial, angular and vertical velocities and the numbers of samples behind the vector field.", "quantifier": "all recordings, cylindrical grids, angles, selections and velocity windows; all rings and layers", "why_tests_cant": "Relates two calls on two turned recordings, for all recordings and angles.", "anchors": ["src/grid/cylindrical_grid.rs: new, to_cylindrical, is_inside, cell_id", "src/functions.rs: numberfield, velocityfield, vectorfield"]}
{"id": "C167", "title": "A turn by one sector carries particles on by one angular cell", "statement": "In ideal arithmetic: when a position inside a cylindrical grid with n angular cells is turned by 2 pi / n about the axis, it is found in the next angular cell of the same ring and layer.", "quantifier": "all cylindrical grids, positions inside", "why_tests_cant": "Quantifies over all grids and positions.", "anchors": ["src/grid/cylindrical_grid.rs: new, to_cylindrical, is_inside, cell_id"]}
{"id": "C168", "title": "Renumbering the particles does not matter to analyses that follow them", "statement": "When two recordings store the same particles in different orders, each with one order in all its timesteps: the trajectory extracted for a particle is that of its number in the other recording; both circulation analyses report the same times in some order; and, in ideal arithmetic, the mean squared displacement, dispersion, occupancy and Lacey results are the same, as is every field computed from single samples.", "quantifier": "all pairs of recordings related by a renumbering, all selections, boundaries, delays, grids and timestep ranges", "why_tests_cant": "Relates two calls on two different files for all recordings and renumberings; each call follows every particle through all timesteps by its row number.", "anchors": ["src/functions/conditional.rs: circulation_time, circulation_time_two_boundary", "src/functions/extractions.rs: extract", "src/functions.rs: dispersion, msd_field, occupancyfield", "src/functions/mixing.rs: lacey_mixing"]}
{"id": "C169", "title": "From the original files to trajectories, circulation times, mean speed and mean velocities", "statement": "A file is converted and opened. At every point of a session: the trajectory extracted from a single-particle csv file is the list of its lines (time, position, velocity) in the asked range of timesteps, the last one of the range excluded; the circulation times across a boundary inside the recorded range are, in some order, the differences between every first and third of three crossings of the boundary by the lines (the last line left out); the circulation times between two boundaries are the round trips of the passages that the lines make; the mean speed is within rounding of the mean of the speeds of the lines; the mean velocity of a cell is within rounding of the mean of the velocities of the lines with positions in it. For a VTK folder whose files hold the same labels, the trajectory of row i follows the i-th label through all the files, wherever in each file its entries are; for a folder with one csv file per timestep it follows line i of each file, at the times given.", "quantifier": "all original files, columns, options and labels, all sessions, timestep ranges and grids", "why_tests_cant": "Composes converter, storage, buffered reading and analysis over all inputs and histories; the order of entries in the files is arbitrary.", "anchors": ["src/converter.rs: vtk, vtk_from_folder, csv_converter", "src/converter/csv_modes/csv_multi_file_time_step.rs", "src/functions/extractions.rs: extract", "src/functions.rs: mean_velocity_showcase, vectorfield", "src/datamanager/pdata.rs", "src/datamanager/tdata.rs", "src/functions/conditional.rs: circulation_time"]}
{"id": "C170", "title": "Mean speed and mean velocities of a folder of files", "statement": "A VTK folder, or a folder with one csv file per timestep, is converted and opened. At every point of a session, with the default selector: the mean speed answered is within rounding of the mean of the speeds of all entries of all files, and the mean velocity answered for a cell of a Cartesian grid is within rounding of the mean of the velocities of all entries of all files with positions in that cell. No entry of any file is lost or counted twice, whatever the order of the entries in the files.", "quantifier": "all folders of files with finite times, all orders of entries in the files, all sessions, all Cartesian grids", "why_tests_cant": "Composes converter (with its sorting), storage, buffered reading and analysis over all folders and histories; the order of the entries is arbitrary.", "anchors": ["src/converter.rs: vtk, vtk_from_folder", "src/converter/csv_modes/csv_multi_file_time_step.rs", "src/functions.rs: mean_velocity_showcase, vectorfield", "src/datamanager/tdata.rs"]}
{"id": "C171", "title": "What is analysed of a CSV file with several particles", "statement": "A CSV file with several particles (chained trajectories or labelled lines) is converted: of the result, only the first particle is ever analysed. If the first particle is not the longest and has fewer than 20000 lines, the converted file cannot be opened: opening panics. If it is not the longest and has 20000 lines or more, the file opens, but at every point of a session reading any timestep past the first particle's end panics, and so do extracting a range that reaches past it and, whatever is selected, the mean speed and the mean velocities in a grid, which go through all timesteps. If it is the longest, then at every point of a session: extracting particle 0 gives the first particle's lines (a line not later than zero or than a line before it shows as a particle at rest in the origin at time zero), extracting any other particle panics, and the mean speed and the mean velocities in the cells of a Cartesian grid are within rounding of the means over the first particle's entries alone, whatever the other particles do.", "quantifier": "all files with several particles, all sessions, timestep ranges and grids", "why_tests_cant": "Composes converter, storage, buffered reading and analysis over all files and histories; that other particles have no influence cannot be established by examples.", "anchors": ["src/converter/csv_modes/csv_multi_chain.rs", "src/converter/csv_modes/csv_multi_idline.rs", "src/functions/extractions.rs: extract", "src/functions.rs: mean_velocity_showcase, vectorfield", "src/datamanager/pdata.rs"]}

{
 "claims": [
  {
   "property": "C01",
   "status": "proved",
   "theorems": [
    "c01_lookup_in_bounds",
    "c01_nan_is_outside"
   ],
   "note": "IEEE doubles; axes of 1 to 2^53+1 cells."
  },
  {
   "property": "C02",
   "status": "proved",
   "theorems": [
    "c02_outside_inert"
   ],
   "note": "Doubles."
  },
  {
   "property": "C03",
   "status": "proved",
   "theorems": [
    "c03_add_touches_one_cell",
    "c03_insert_touches_one_cell"
   ],
   "note": "IEEE doubles, Cartesian grids; cylindrical grids in c20."
  },
  {
   "property": "C04",
   "status": "proved",
   "theorems": [
    "c04_history"
   ],
   "note": "IEEE doubles, any history."
  },
  {
   "property": "C05",
   "status": "proved",
   "theorems": [
    "c05_monotone"
   ],
   "note": "IEEE doubles."
  },
  {
   "property": "C06",
   "status": "proved",
   "theorems": [
    "c06_centre"
   ],
   "note": "Real arithmetic."
  },
  {
   "property": "C07",
   "status": "proved",
   "theorems": [
    "c07_cells",
    "c07_last_is_a_point"
   ],
   "note": "Real arithmetic."
  },
  {
   "property": "C08",
   "status": "proved",
   "theorems": [
    "c08_slice"
   ],
   "note": "Real arithmetic."
  },
  {
   "property": "C09",
   "status": "proved",
   "theorems": [
    "c09_new_grid",
    "c09_other_dimensions_refused",
    "c09_centres",
    "c09_published_positions"
   ],
   "note": "Shape, zeros and limits in doubles; spacing of centres in ideal arithmetic."
  },
  {
   "property": "C10",
   "status": "proved",
   "theorems": [
    "c10_trajectory_totals",
    "c10_trajectory_cells",
    "c02_outside_inert"
   ],
   "note": "Totals in ideal arithmetic; outside end: in doubles."
  },
  {
   "property": "C100",
   "status": "proved",
   "theorems": [
    "c100_csv",
    "c100_vtk",
    "c100_step_files"
   ],
   "note": ""
  },
  {
   "property": "C101",
   "status": "proved",
   "theorems": [
    "c101_as_asked",
    "c101_limits",
    "c101_ranges",
    "c101_refused",
    "c101_panics"
   ],
   "note": "isinstance checks, which only raise, are not modelled."
  },
  {
   "property": "C102",
   "status": "proved",
   "theorems": [
    "c102_cylinder"
   ],
   "note": "Exact (real) arithmetic."
  },
  {
   "property": "C103",
   "status": "proved",
   "theorems": [
    "c103_cell_size"
   ],
   "note": "Exact (real) arithmetic."
  },
  {
   "property": "C104",
   "status": "partial",
   "theorems": [
    "c101_limits",
    "c103_cell_size",
    "c104_negative_refuted",
    "c104_size_refuted",
    "c104_count_refuted",
    "c104_no_cells_refuted",
    "c104_rounding_refuted",
    "c104_holds_nothing"
   ],
   "note": "False: negative limits are refused, data+limits+cell_size raises (cartesian) or counts along the range of the data (cylindrical), a size above the range gives no cells, rounding loses a cell."
  },
  {
   "property": "C105",
   "status": "partial",
   "theorems": [
    "c16_modes_0_1",
    "c105_modes_refuted"
   ],
   "note": "False: the modes are off by one (0 zero, 1 threshold, 2 mean) and mode 3 panics."
  },
  {
   "property": "C106",
   "status": "partial",
   "theorems": [
    "c100_csv",
    "c100_vtk",
    "c100_step_files",
    "c102_cylinder",
    "c100_falling_refuted",
    "c102_corner_refuted"
   ],
   "note": "False: if a coordinate only falls, its recorded maximum is f64::MIN and the grid contains nothing; the corners of the recorded box are outside the cylinder."
  },
  {
   "property": "C107",
   "status": "proved",
   "theorems": [
    "c107_id_line",
    "c107_chain"
   ],
   "note": ""
  },
  {
   "property": "C108",
   "status": "proved",
   "theorems": [
    "c108_id_line",
    "c108_chain"
   ],
   "note": "The resampled times may fall (last sample before the one before it), so success is only stated for sorted results."
  },
  {
   "property": "C109",
   "status": "proved",
   "theorems": [
    "c109_lines",
    "c109_resampled"
   ],
   "note": ""
  },
  {
   "property": "C11",
   "status": "proved",
   "theorems": [
    "c11_new_zeros"
   ],
   "note": ""
  },
  {
   "property": "C110",
   "status": "proved",
   "theorems": [
    "c110_vtk",
    "c110_nothing"
   ],
   "note": ""
  },
  {
   "property": "C111",
   "status": "proved",
   "theorems": [
    "c111_missing_field",
    "c111_wrong_kind"
   ],
   "note": ""
  },
  {
   "property": "C112",
   "status": "proved",
   "theorems": [
    "c112_folder"
   ],
   "note": "The natural order (natord crate) is any strict total order."
  },
  {
   "property": "C113",
   "status": "partial",
   "theorems": [
    "c112_folder",
    "c113_only_vtk_refuted"
   ],
   "note": "False: only names ending in .vtk are considered, whatever the filter, so a folder of .vtu or .vtp files is always refused."
  },
  {
   "property": "C114",
   "status": "proved",
   "theorems": [
    "c114_csv",
    "c114_csv_multi",
    "c114_csv_multi_files",
    "c114_unreadable"
   ],
   "note": ""
  },
  {
   "property": "C115",
   "status": "partial",
   "theorems": [
    "c114_csv",
    "c115_csv_refuted",
    "c115_csv_default_refuted",
    "c115_csv_multi_default_refuted",
    "c115_csv_multi_quotes_refuted",
    "c164_python"
   ],
   "note": "False: by default Converter.csv neither reads nor computes velocities and then always panics; the default method of csv_multi contains quotation marks, so nothing is written; and with a method given, its other defaults read the text with quotation marks as separator and comment character. The defaults of csv_multi_files do work (C164)."
  },
  {
   "property": "C116",
   "status": "proved",
   "theorems": [
    "c116_p_no_trace",
    "c116_p_calls",
    "c116_t_no_trace",
    "c116_t_calls"
   ],
   "note": ""
  },
  {
   "property": "C117",
   "status": "proved",
   "theorems": [
    "c117_same_answers"
   ],
   "note": "Beyond 20000 timesteps auxiliary reads of particle-ordered files are wrong: C79."
  },
  {
   "property": "C118",
   "status": "proved",
   "theorems": [
    "c118_p_recorded",
    "c118_t_recorded"
   ],
   "note": "Time-ordered files: all datasets of a timestep equally long."
  },
  {
   "property": "C119",
   "status": "proved",
   "theorems": [
    "c119_vtk",
    "c119_vtk_all",
    "c119_csv",
    "c119_csv_all",
    "c119_step_files",
    "c119_step_files_all"
   ],
   "note": "Up to 2^53 positions (beyond, f64 cannot count) and finite times (the default window accepts only those)."
  },
  {
   "property": "C12",
   "status": "proved",
   "theorems": [
    "c12_mean",
    "c12_unvisited_is_nan"
   ],
   "note": "Mean in ideal arithmetic for any history; NaN and the exact quotient in doubles."
  },
  {
   "property": "C120",
   "status": "partial",
   "theorems": [
    "c120_opens_partial",
    "c120_short_refuted",
    "c120_none_refuted"
   ],
   "note": "False: if the first trajectory written has fewer lines than the longest (and than 20000), or none was written, opening panics. Proved: it opens when the first is the longest."
  },
  {
   "property": "C121",
   "status": "partial",
   "theorems": [
    "c121_not_aligned_refuted"
   ],
   "note": "False: align only prints; the grids and the flag stay as compare set them."
  },
  {
   "property": "C122",
   "status": "partial",
   "theorems": [
    "c122_aligns",
    "c122_sparse_refuted",
    "lattice_aligns"
   ],
   "note": "False: with at most 10000 positions in either data set align panics. Proved: it finishes exactly if at each offset more than 10000 cells of both grids are occupied; a lattice of 99^3 positions is such a case."
  },
  {
   "property": "C123",
   "status": "proved",
   "theorems": [
    "c123_prints",
    "c123_grids",
    "c123_kind"
   ],
   "note": "The mismatches (c123_prints) for Cartesian grids."
  },
  {
   "property": "C124",
   "status": "partial",
   "theorems": [
    "c124_boxes",
    "c124_moved",
    "c124_units_refuted",
    "c124_units_small_refuted"
   ],
   "note": "False for different units (width ratio above 800): the correction is applied in the wrong direction, so the second data set falls into one cell or its box covers less than 1/800000 of it. Proved for width ratios up to 800."
  },
  {
   "property": "C125",
   "status": "proved",
   "theorems": [
    "c125_p_session",
    "c125_t_session",
    "c125_number",
    "c125_velocity",
    "c125_vector",
    "c125_histogram",
    "c125_histogram_other",
    "c125_concentration",
    "c125_extract",
    "c125_attributes",
    "c125_set_time",
    "c125_circulation",
    "c125_circulation_two",
    "c125_item",
    "c125_items",
    "c125_slice",
    "c125_occupancy",
    "c125_temperature",
    "c125_lacey",
    "c125_dispersion",
    "c125_msd_field",
    "c125_msd",
    "c125_homogenity"
   ],
   "note": "c125_p_session/c125_t_session: after any earlier calls the object still reads the file (recorded) with the window of the last set_time; the other theorems give each method its answer in such a state. temperature, lacey, dispersion, msd and homogenity in ideal arithmetic; the methods over pairs of timesteps assume that reads ahead work, as C30 and C79 say. What documented answers the code itself misses (C65-C85) is stated there."
  },
  {
   "property": "C126",
   "status": "proved",
   "theorems": [
    "c126_csv",
    "c126_csv_multi",
    "c126_vtk",
    "c126_csv_steps"
   ],
   "note": "For any world (earlier file, number of calls before the interruption). HDF5 calls are taken to be atomic and in program order; an interruption inside a call, or writes that the operating system reorders, are not modelled."
  },
  {
   "property": "C127",
   "status": "proved",
   "theorems": [
    "c127_csv_opens",
    "c127_csv_multi_opens",
    "c127_vtk_opens",
    "c127_csv_steps_opens",
    "c127_csv",
    "c127_csv_multi",
    "c127_vtk",
    "c127_vtk_misfit",
    "c127_csv_steps",
    "c127_open_p",
    "c127_open_t",
    "numbered_inj",
    "c127_names"
   ],
   "note": "c127_*_opens: the uninterrupted run, then Data(file), against the converter functions about which C53-C60, C68, C69, C107-C124 speak."
  },
  {
   "property": "C128",
   "status": "proved",
   "theorems": [
    "c128_csv",
    "c128_csv_multi",
    "c128_vtk",
    "c128_csv_steps"
   ],
   "note": ""
  },
  {
   "property": "C129",
   "status": "partial",
   "theorems": [
    "c129_csv_refuted",
    "c129_vtk_refuted",
    "c129_unreadable_refuted",
    "c129_misfit_refuted"
   ],
   "note": "False: the output file is truncated by the first call, before the input is read. After any later failure or interruption nothing that opens is left, whatever the file held before."
  },
  {
   "property": "C13",
   "status": "proved",
   "theorems": [
    "c13_shape_invariant",
    "c13_new_grids_have_the_shape",
    "c13_set_refuses_other_shapes"
   ],
   "note": ""
  },
  {
   "property": "C130",
   "status": "proved",
   "theorems": [
    "c130_cell",
    "c130_exact",
    "c130_inside"
   ],
   "note": "Cartesian grids. c130_exact compares with the same model run in real arithmetic."
  },
  {
   "property": "C131",
   "status": "proved",
   "theorems": [
    "c131_centres",
    "c131_increasing",
    "c131_found"
   ],
   "note": ""
  },
  {
   "property": "C132",
   "status": "proved",
   "theorems": [
    "c132_slice"
   ],
   "note": ""
  },
  {
   "property": "C133",
   "status": "proved",
   "theorems": [
    "c133_grid",
    "c133_velocity_field",
    "c133_vector_field",
    "c133_speed",
    "c133_mean_speed"
   ],
   "note": "Cartesian grids (the lookup on cylindrical grids in doubles is C140). Against the exact mean of the recorded doubles, which is what C12, C35, C36 and C41 state in real arithmetic."
  },
  {
   "property": "C134",
   "status": "proved",
   "theorems": [
    "c134_slice",
    "c134_slice_pos",
    "c134_slice_pos_ideal",
    "c134_vectorfield",
    "c134_depth_average"
   ],
   "note": "c134_depth_average and c134_slice_pos_ideal in real arithmetic, c134_vectorfield, c134_slice and c134_slice_pos in doubles."
  },
  {
   "property": "C135",
   "status": "proved",
   "theorems": [
    "c135_summary"
   ],
   "note": ""
  },
  {
   "property": "C136",
   "status": "partial",
   "theorems": [
    "c136_mean_refuted",
    "c136_components_refuted",
    "c136_first_component",
    "c136_empty",
    "c136_one_cell",
    "c136_extremes"
   ],
   "note": "False: the printed mean and deviation are NaN as soon as one cell was never visited (neither skips NaN here), and only the first component is shown: two fields that differ in the others print the same; the deviation of a field of one cell is NaN. Proved: in real arithmetic the mean and the deviation (divided by one less than the number of cells) are those of the first component; the extremes printed are those of the cells of the first component that hold a number; a field without cells panics."
  },
  {
   "property": "C137",
   "status": "proved",
   "theorems": [
    "c137_pairs",
    "c137_deltas",
    "c137_whole",
    "c137_whole_diagonal"
   ],
   "note": ""
  },
  {
   "property": "C138",
   "status": "proved",
   "theorems": [
    "c138_point",
    "c138_short"
   ],
   "note": ""
  },
  {
   "property": "C139",
   "status": "proved",
   "theorems": [
    "c139_any_schedule",
    "c139_progress",
    "c139_terminates",
    "c139_no_endless_run",
    "c139_velocities"
   ],
   "note": "The work-stealing pool is a set of index ranges, each step splitting one, running the next item of one, or (after a panic) dropping one. What the row computation gives is C109; the signal check inside the items is not modelled."
  },
  {
   "property": "C14",
   "status": "proved",
   "theorems": [
    "c14_collapse",
    "c14_collapse_f64",
    "c14_unvisited_is_nan",
    "c14_axis_refused"
   ],
   "note": "Weighted mean, bounds and totals in ideal arithmetic; exact expression with NaN handling in doubles."
  },
  {
   "property": "C140",
   "status": "proved",
   "theorems": [
    "c140_radius",
    "c140_rings",
    "c140_rings_increase",
    "c140_distance",
    "c140_rim",
    "c140_lookup",
    "c140_found"
   ],
   "note": "The angle is whatever atan2 returns (assumed of PI: a double between 3 and 4). What happens at the very rim, where the last boundary may fall below the radius, is C74; that nearest upper edge is not the enclosing sector or layer is in C20 and C74."
  },
  {
   "property": "C141",
   "status": "proved",
   "theorems": [
    "c141_any_grid",
    "c141_granular_temperature"
   ],
   "note": "That the result can be NaN where the exact variance is within the bound is c39_nan_refuted."
  },
  {
   "property": "C142",
   "status": "proved",
   "theorems": [
    "c142_dispersion",
    "c142_mean"
   ],
   "note": "Given that the call returns (c40_returns)."
  },
  {
   "property": "C143",
   "status": "proved",
   "theorems": [
    "c143_edges",
    "c143_bin",
    "c143_none",
    "c143_histogram"
   ],
   "note": "Speeds are the computed ones."
  },
  {
   "property": "C144",
   "status": "proved",
   "theorems": [
    "c144_lacey"
   ],
   "note": "Given that the call returns (c43_returns)."
  },
  {
   "property": "C145",
   "status": "proved",
   "theorems": [
    "c145_field",
    "c145_msd"
   ],
   "note": "Given that the calls return (c45_returns); what the ideal value means is C45."
  },
  {
   "property": "C146",
   "status": "proved",
   "theorems": [
    "c146_chord",
    "c146_at_sample",
    "c146_tail_blank",
    "c146_accuracy",
    "c146_falls_behind"
   ],
   "note": "Ideal arithmetic (reals)."
  },
  {
   "property": "C147",
   "status": "proved",
   "theorems": [
    "c147_velocity",
    "c147_exact"
   ],
   "note": "Ideal arithmetic (reals); the polynomial fit (crate polyfit-rs) is any function that minimises the sum of squares."
  },
  {
   "property": "C148",
   "status": "proved",
   "theorems": [
    "c148_velocity"
   ],
   "note": "Ideal arithmetic (reals); the polynomial fit is any least-squares fit. What happens from the middle of the last gap on is c146_tail_blank."
  },
  {
   "property": "C149",
   "status": "proved",
   "theorems": [
    "c149_returns",
    "c149_returns_iff",
    "c149_number",
    "c149_velocity",
    "c149_vector"
   ],
   "note": "PI is assumed to be a double between 3 and 4; atan2 is whatever it returns. The vector field averages the converted velocities, assumed of ordinary size; the granular temperature's accuracy is c141_any_grid (C141)."
  },
  {
   "property": "C15",
   "status": "proved",
   "theorems": [
    "c15_collapse_two",
    "c15_collapse_two_f64",
    "c15_axis_order",
    "c15_equal_axes_refused"
   ],
   "note": ""
  },
  {
   "property": "C150",
   "status": "proved",
   "theorems": [
    "c150_before",
    "c150_beyond",
    "c150_far",
    "c150_panics_only"
   ],
   "note": "Between 512 and 2^66 lengths beyond the lower limit only 'a panic or some plane' is known; ndarray's s! macro casts the index to isize and counts negative numbers from the end."
  },
  {
   "property": "C151",
   "status": "proved",
   "theorems": [
    "c151_one",
    "c151_multi",
    "c151_steps",
    "c151_refused",
    "c70_empty_file"
   ],
   "note": ""
  },
  {
   "property": "C152",
   "status": "partial",
   "theorems": [
    "c152_p",
    "c152_t",
    "c152_stale_refuted",
    "c152_refused_refuted",
    "c152_overwritten_refuted"
   ],
   "note": "Proved for builds with overflow checks, and for every build as long as no index is more than one past the end. False otherwise: update stores the size of the window, which wraps around, before anything else; two out-of-range reads of a time-ordered file make later reads in range return timestep 0; after an out-of-range read of a particle-ordered file reads in range are refused, and refused ones can leave another timestep's data in the buffer, which is then returned for timestep 0."
  },
  {
   "property": "C153",
   "status": "proved",
   "theorems": [
    "c153_collapse",
    "c153_collapse_two",
    "c153_vector",
    "c153_velocity",
    "c153_velocity_two"
   ],
   "note": "In doubles, any grid. Weights must be whole numbers or halves (every function of the library adds 1 per sample, except the occupancy field on Cartesian grids, which adds 1/2 for each end of a stay) whose sum is at most 2^52; fields with at most 2^46 samples in a line of cells."
  },
  {
   "property": "C154",
   "status": "proved",
   "theorems": [
    "c154_shares",
    "c154_total"
   ],
   "note": "In doubles, any grid. At most 2^46 stays."
  },
  {
   "property": "C155",
   "status": "proved",
   "theorems": [
    "c155_weights",
    "c155_index"
   ],
   "note": "In doubles, any grid with at least one layer and at most 2^42 cells along each axis. Absolute bound on the square of the index."
  },
  {
   "property": "C156",
   "status": "proved",
   "theorems": [
    "c156_mean",
    "c156_std",
    "c156_equal",
    "c156_printed"
   ],
   "note": "Two-pass algorithm, in doubles. The deviation is compared squared."
  },
  {
   "property": "C157",
   "status": "proved",
   "theorems": [
    "c157_counts",
    "c157_windows",
    "c157_joined",
    "c157_velocity",
    "parts_id_ranges",
    "parts_id_lists"
   ],
   "note": "Counts in doubles, velocities in ideal arithmetic. For calls that return (on Cartesian grids they do: C34, C35)."
  },
  {
   "property": "C158",
   "status": "proved",
   "theorems": [
    "c158_counts",
    "c158_velocity",
    "c158_velocity_doubles",
    "c158_bits_refuted"
   ],
   "note": "The bits of a mean do depend on the order: c158_bits_refuted (1, 1, 2^53)."
  },
  {
   "property": "C159",
   "status": "proved",
   "theorems": [
    "c159_number",
    "c159_velocity",
    "c159_centres"
   ],
   "note": "Ideal arithmetic; doubles: C160."
  },
  {
   "property": "C16",
   "status": "proved",
   "theorems": [
    "c16_modes_0_1",
    "c16_other_modes_refused",
    "c16_negative_threshold_refuted"
   ],
   "note": "Statement as given proved; note that mode 0 with a negative threshold leaves cells above it."
  },
  {
   "property": "C160",
   "status": "proved",
   "theorems": [
    "c160_same_cell",
    "c160_number",
    "c160_velocity",
    "c160_decimal_refuted"
   ],
   "note": "The factor of ten is refuted by c160_decimal_refuted (5/11 of a grid with 12 cells)."
  },
  {
   "property": "C161",
   "status": "proved",
   "theorems": [
    "c161_number_is_weight",
    "c161_components",
    "c161_speed_between",
    "c161_one_number"
   ],
   "note": "Doubles for the first two, ideal arithmetic for the last two."
  },
  {
   "property": "C162",
   "status": "proved",
   "theorems": [
    "c162_order_vector",
    "c162_order_temperature",
    "c162_units_vector",
    "c162_units_temperature",
    "c162_moving_frame",
    "c162_temperature_frame",
    "c162_rest",
    "c162_mixture"
   ],
   "note": "Ideal arithmetic; for calls that return. Cells without samples are excluded (0/0)."
  },
  {
   "property": "C163",
   "status": "proved",
   "theorems": [
    "c163_concentration",
    "c163_lacey",
    "c163_mean_speed",
    "c163_occupancy",
    "c163_circulation",
    "c163_histogram",
    "c163_msd",
    "c163_dispersion",
    "c163_time_units_refuted"
   ],
   "note": "Ideal arithmetic; for calls that return (histogram and mean speed: they return). The histogram for summaries whose limits are restated. Units of time are refuted for displacements because the delayed timestep is searched with the absolute tolerance 0.01 (c163_time_units_refuted, for all builds, grids and cells that contain the start)."
  },
  {
   "property": "C164",
   "status": "proved",
   "theorems": [
    "c164_same",
    "c164_stored",
    "c164_read_back",
    "c164_mean_velocity",
    "c164_python"
   ],
   "note": ""
  },
  {
   "property": "C165",
   "status": "proved",
   "theorems": [
    "c165_grid",
    "c165_inside",
    "c165_cell",
    "c165_number",
    "c165_velocity",
    "c165_vector"
   ],
   "note": "Ideal arithmetic with the exact angle of a point. The vector field with the origin across the axis kept, because the conversion of velocities uses positions relative to the origin of the coordinates (C77)."
  },
  {
   "property": "C166",
   "status": "proved",
   "theorems": [
    "c166_inside",
    "c166_ring_layer",
    "c166_number",
    "c166_velocity",
    "c166_vector"
   ],
   "note": "Ideal arithmetic with the exact angle of a point. The vector field with the axis through the origin, because the conversion of velocities uses positions relative to the origin of the coordinates (C77)."
  },
  {
   "property": "C167",
   "status": "partial",
   "theorems": [
    "c167_sector_partial",
    "c167_sector_refuted"
   ],
   "note": "False: on every cylindrical grid with at least two angular cells, all positions in the lower half of the first sector's angles stay in the same cell (c167_sector_refuted), because angles are compared with the upper edges only and the circle is not closed. Proved for positions beyond the first sector's angles that end before the half turn (c167_sector_partial)."
  },
  {
   "property": "C168",
   "status": "proved",
   "theorems": [
    "c168_circulation",
    "c168_two_boundaries",
    "c168_extract",
    "c168_msd",
    "c168_dispersion",
    "c168_occupancy",
    "c168_lacey",
    "c168_samples"
   ],
   "note": "Circulation and trajectories for any arithmetic, doubles included; the others in ideal arithmetic, where sums do not depend on the order. Fields of single samples through C158 (c168_samples gives its hypothesis). An order that changes from timestep to timestep does matter (C47, c47_mixed_refuted)."
  },
  {
   "property": "C169",
   "status": "proved",
   "theorems": [
    "c169_csv_recorded",
    "c169_csv_trajectory",
    "c169_csv_circulation",
    "c169_csv_circulation_two",
    "c169_csv_mean_speed",
    "c169_csv_vectors",
    "c169_vtk_recorded",
    "c169_vtk_trajectory",
    "c169_step_trajectory"
   ],
   "note": "T, P, V are the times, positions and velocities written (C53 says which lines these are). Rounding bounds as in C133; velocities up to 2^500 (mean speed) resp. 2^960. The last timestep of the file cannot be reached by extract (C46)."
  },
  {
   "property": "C17",
   "status": "proved",
   "theorems": [
    "c17_mode2_release",
    "c17_mode2_debug"
   ],
   "note": "Doubles; both builds."
  },
  {
   "property": "C170",
   "status": "proved",
   "theorems": [
    "c170_vtk_mean_speed",
    "c170_vtk_vectors",
    "c170_step_recorded",
    "c170_step_mean_speed",
    "c170_step_vectors"
   ],
   "note": "Rounding bounds as in C133 (mean_close); velocities up to 2^500 (mean speed) resp. 2^960 (cells), fewer than 2^52 entries."
  },
  {
   "property": "C171",
   "status": "proved",
   "theorems": [
    "c171_not_opened",
    "c171_shorter_opened",
    "c171_shorter_reads",
    "c171_shorter_no_speed",
    "c171_shorter_no_vectors",
    "c171_shorter_no_lines",
    "c171_recorded",
    "c171_trajectory",
    "c171_mean_speed",
    "c171_vectors",
    "c171_chain"
   ],
   "note": "The file is described by holds_all (C59, C68: what the converter writes; c171_chain gives it for any successful chain conversion). Rounding bounds as in C133. Companion of C69 (refuted: nothing is lost)."
  },
  {
   "property": "C18",
   "status": "proved",
   "theorems": [
    "c18_slice_idx"
   ],
   "note": ""
  },
  {
   "property": "C19",
   "status": "proved",
   "theorems": [
    "c19_rings"
   ],
   "note": "Ideal arithmetic."
  },
  {
   "property": "C20",
   "status": "proved",
   "theorems": [
    "c21_lookup",
    "c20_cell_found",
    "c20_inside_and_add"
   ],
   "note": "Real arithmetic; c21_lookup with the real PI and atan2."
  },
  {
   "property": "C21",
   "status": "proved",
   "theorems": [
    "c21_lookup",
    "c21_before_or_at"
   ],
   "note": "Real arithmetic, real PI and atan2."
  },
  {
   "property": "C22",
   "status": "proved",
   "theorems": [
    "c22_components"
   ],
   "note": "Doubles, any history."
  },
  {
   "property": "C23",
   "status": "proved",
   "theorems": [
    "c23_cartesian",
    "c23_cylindrical"
   ],
   "note": "Real arithmetic."
  },
  {
   "property": "C24",
   "status": "proved",
   "theorems": [
    "c24_radius",
    "c24_empty_panics"
   ],
   "note": ""
  },
  {
   "property": "C25",
   "status": "proved",
   "theorems": [
    "c25_cloud",
    "c25_density"
   ],
   "note": "Doubles."
  },
  {
   "property": "C26",
   "status": "proved",
   "theorems": [
    "c26_ids",
    "c26_single"
   ],
   "note": ""
  },
  {
   "property": "C27",
   "status": "proved",
   "theorems": [
    "c27_conjunction",
    "c27_default_accepts_all",
    "c27_default_accepts_every_finite_time",
    "c27_default_time",
    "c27_window",
    "c27_set_time_frame"
   ],
   "note": ""
  },
  {
   "property": "C28",
   "status": "proved",
   "theorems": [
    "c28_reads",
    "c28_after_any_history"
   ],
   "note": ""
  },
  {
   "property": "C29",
   "status": "proved",
   "theorems": [
    "c29_reads",
    "c29_after_any_history"
   ],
   "note": ""
  },
  {
   "property": "C30",
   "status": "proved",
   "theorems": [
    "c30_p_one_window",
    "c30_t_sound",
    "c30_t_forward"
   ],
   "note": "Any history of in-range operations."
  },
  {
   "property": "C31",
   "status": "proved",
   "theorems": [
    "c31_t",
    "c31_p_single"
   ],
   "note": "Any history of in-range operations."
  },
  {
   "property": "C32",
   "status": "proved",
   "theorems": [
    "c32_search"
   ],
   "note": "Doubles."
  },
  {
   "property": "C33",
   "status": "proved",
   "theorems": [
    "c33_velocity_speed",
    "c33_position_distance",
    "c33_anchor_fixed",
    "c33_distance_to_anchor",
    "c33_zero_angles",
    "c33_quarter_turn",
    "c33_angle_set"
   ],
   "note": "Ideal arithmetic."
  },
  {
   "property": "C34",
   "status": "proved",
   "theorems": [
    "c34_number_of_samples",
    "c34_nothing_lost",
    "c34_cylindrical",
    "c34_cylindrical_ideal",
    "c34_on_a_file",
    "number_cells",
    "number_total"
   ],
   "note": "Any manager that reads as the recorded file, any grid, any selector; on PData and TData files in particular."
  },
  {
   "property": "C35",
   "status": "proved",
   "theorems": [
    "c35_unknown_mode",
    "c35_modes",
    "c35_mean",
    "c35_mean_ideal"
   ],
   "note": ""
  },
  {
   "property": "C36",
   "status": "proved",
   "theorems": [
    "c36_vector_mean",
    "c36_vector_mean_ideal"
   ],
   "note": "Fresh grid."
  },
  {
   "property": "C37",
   "status": "proved",
   "theorems": [
    "c37_shares",
    "c37_returns",
    "c37_nothing_observed",
    "c37_fraction",
    "c37_sums_to_one",
    "c37_pfile",
    "c37_tfile",
    "c37_any_manager",
    "c37_short_refuted"
   ],
   "note": "Also end to end for both file kinds (particle-ordered: files of one window)."
  },
  {
   "property": "C38",
   "status": "proved",
   "theorems": [
    "c38_counts",
    "c38_total",
    "c38_edges",
    "c38_enclosed",
    "c38_other_property_refused"
   ],
   "note": "Counts in doubles, edges over the reals."
  },
  {
   "property": "C39",
   "status": "proved",
   "theorems": [
    "c39_unknown_mode",
    "c39_returns",
    "c39_standard_deviation",
    "c39_zero_iff_uniform"
   ],
   "note": ""
  },
  {
   "property": "C40",
   "status": "proved",
   "theorems": [
    "c40_sample_variance",
    "c40_zero_iff_coincide",
    "c40_returns"
   ],
   "note": ""
  },
  {
   "property": "C41",
   "status": "proved",
   "theorems": [
    "c41_mean_speed",
    "c41_mean_ideal",
    "c41_mean_velocity_is_header"
   ],
   "note": ""
  },
  {
   "property": "C42",
   "status": "proved",
   "theorems": [
    "c42_from_occupancy",
    "c42_returns",
    "c42_standard_deviation"
   ],
   "note": ""
  },
  {
   "property": "C43",
   "status": "proved",
   "theorems": [
    "c43_index",
    "c43_upper_bound",
    "c43_returns"
   ],
   "note": ""
  },
  {
   "property": "C44",
   "status": "proved",
   "theorems": [
    "c44_share",
    "c44_complement"
   ],
   "note": ""
  },
  {
   "property": "C45",
   "status": "proved",
   "theorems": [
    "c45_field",
    "c45_bound",
    "c45_msd",
    "c45_returns"
   ],
   "note": ""
  },
  {
   "property": "C46",
   "status": "proved",
   "theorems": [
    "c46_rows",
    "c46_refused",
    "c46_missing_particle"
   ],
   "note": ""
  },
  {
   "property": "C47",
   "status": "proved",
   "theorems": [
    "c47_times",
    "c47_returns",
    "c47_refused",
    "c47_each",
    "c47_one_particle",
    "c47_crossing_sound",
    "c47_crossing_exact",
    "c47_nonnegative"
   ],
   "note": ""
  },
  {
   "property": "C48",
   "status": "proved",
   "theorems": [
    "c48_intervals",
    "c48_trips",
    "c48_ordered",
    "c48_disjoint",
    "c48_returns",
    "c48_refused"
   ],
   "note": ""
  },
  {
   "property": "C49",
   "status": "proved",
   "theorems": [
    "c49_sortlist",
    "c49_scalars",
    "c49_vectors",
    "c49_together"
   ],
   "note": "Stable permutation that sorts the keys, applied consistently to scalar and to vector arrays."
  },
  {
   "property": "C50",
   "status": "proved",
   "theorems": [
    "c50_sorted",
    "c50_rows",
    "c50_identity",
    "c50_nan"
   ],
   "note": "Rows are permuted, sorted by the column, stably; NaN keys panic."
  },
  {
   "property": "C51",
   "status": "proved",
   "theorems": [
    "c51_rows",
    "c51_unsorted",
    "c51_empty",
    "c51_affine"
   ],
   "note": ""
  },
  {
   "property": "C52",
   "status": "proved",
   "theorems": [
    "c52_rows",
    "c52_total",
    "c52_even",
    "c52_short",
    "c52_one",
    "c52_slope_derivative",
    "c52_velocity",
    "c52_linear"
   ],
   "note": "The polynomial fit (crate) and powf are parameters with stated properties."
  },
  {
   "property": "C53",
   "status": "proved",
   "theorems": [
    "c53_written",
    "c53_refused",
    "c53_columns",
    "c53_velocity",
    "c53_resampled"
   ],
   "note": "Exact set of written rows (doubles, NaN-free times); refusal is an iff; also for computed velocities; resampling without velocities is always refused."
  },
  {
   "property": "C54",
   "status": "proved",
   "theorems": [
    "c54_header",
    "c54_time"
   ],
   "note": "Ranges, means, counts and times of the header, for every setting of the converter."
  },
  {
   "property": "C55",
   "status": "proved",
   "theorems": [
    "c55_file",
    "c55_read_back"
   ],
   "note": "End to end with the reader of C28, any history of reads. (c55_length_refuted: the radius, id and type datasets are longer than the number of timesteps when rows were dropped; the readers do not look at the excess.)"
  },
  {
   "property": "C56",
   "status": "proved",
   "theorems": [
    "c56_converted",
    "c56_refused",
    "c56_read_back"
   ],
   "note": "Fields as returned by the VTK parser; ids sorted stably; doubles; end to end with the TData reader of C29."
  },
  {
   "property": "C57",
   "status": "proved",
   "theorems": [
    "c57_header"
   ],
   "note": "Doubles, any sequence of files. The exact condition for the highest value is the second clause of range_recorded."
  },
  {
   "property": "C58",
   "status": "proved",
   "theorems": [
    "c58_groups",
    "c58_max_time",
    "id_exact"
   ],
   "note": "Doubles. (c58_singletons_refuted: with one row per particle the number of steps is 0.)"
  },
  {
   "property": "C59",
   "status": "proved",
   "theorems": [
    "c59_chain"
   ],
   "note": "Doubles, NaN-free times, seven columns, velocities read from the file (no interpolation)."
  },
  {
   "property": "C60",
   "status": "proved",
   "theorems": [
    "c60_len",
    "c60_int",
    "c60_list",
    "c60_slice",
    "c60_pfile",
    "c60_tfile",
    "c60_opened"
   ],
   "note": "Both file kinds, after any history; Z indices as passed by Python."
  },
  {
   "property": "C61",
   "status": "proved",
   "theorems": [
    "c61_open",
    "c61_refused"
   ],
   "note": "All attribute values."
  },
  {
   "property": "C62",
   "status": "proved",
   "theorems": [
    "c62_marks",
    "c62_accepts",
    "c62_monotone",
    "c62_rank_bound",
    "c62_quantile_one"
   ],
   "note": "Doubles."
  },
  {
   "property": "C63",
   "status": "proved",
   "theorems": [
    "c63_mean",
    "c63_std",
    "c63_ignores",
    "c63_all_nan",
    "c63_std_sign",
    "c63_mean_ideal",
    "c63_std_ideal"
   ],
   "note": "Exact formula in doubles, bounds over the reals."
  },
  {
   "property": "C64",
   "status": "proved",
   "theorems": [
    "c64_minmax",
    "c64_empty",
    "c64_meshgrid",
    "c64_meshgrid3d",
    "c64_flatten_2d",
    "c64_flatten_3d"
   ],
   "note": "minmax for doubles, the rest for any numbers."
  },
  {
   "property": "C65",
   "status": "partial",
   "theorems": [
    "c65_p_refuted",
    "c65_t_refuted",
    "c65_opened_refuted",
    "c65_release_refuted",
    "c65_partial"
   ],
   "note": "False of the code one past the end, after any history (stale data returned), and for time-ordered files without overflow checks anywhere past the end; particle-ordered files further past the end are refused in every build, time-ordered ones with overflow checks (proved)."
  },
  {
   "property": "C66",
   "status": "partial",
   "theorems": [
    "c54_header",
    "c54_time",
    "c54_rate_refuted"
   ],
   "note": "Refuted: the sample rate is always 0; the highest value of a quantity that only falls is f64::MIN (third clause of range_recorded in c54_header). Proved: the highest value is right whenever a later value reaches the first."
  },
  {
   "property": "C67",
   "status": "partial",
   "theorems": [
    "c57_nparticles_refuted",
    "c57_header"
   ],
   "note": "Refuted: the particle number is the largest id, not a count (ids 3 and 7: header says 7). Highest values: exact condition in c57_header (range_recorded); a quantity that only falls is recorded as f64::MIN."
  },
  {
   "property": "C68",
   "status": "proved",
   "theorems": [
    "c68_id_line"
   ],
   "note": "Doubles, NaN-free times, eight columns, velocities read from the file (no interpolation)."
  },
  {
   "property": "C69",
   "status": "partial",
   "theorems": [
    "c59_chain",
    "c68_id_line",
    "c69_single_refuted",
    "c69_short_refuted",
    "c69_one_shown_refuted",
    "c69_origin_refuted",
    "c58_singletons_refuted"
   ],
   "note": "False: the last trajectory of a chain is never written, nor are those of fewer than ten lines; the header always says one particle, so readers are shown only the first; a line not later than all before it reads as a particle at rest in the origin."
  },
  {
   "property": "C70",
   "status": "proved",
   "theorems": [
    "c70_converted",
    "c70_refused",
    "c70_empty_file",
    "c70_read_back"
   ],
   "note": "Doubles, seven columns. (c70_nparticles_refuted: the number of particles in the header is that of the last file.)"
  },
  {
   "property": "C71",
   "status": "partial",
   "theorems": [
    "c60_slice",
    "c71_remainder_refuted",
    "c71_reversed_refuted",
    "c71_empty_refuted",
    "c71_past_end_refuted"
   ],
   "note": "Refuted: a slice whose step does not divide the span panics, a reversed one gives zeros, an empty one with start beyond stop panics, data[n] gives an old timestep."
  },
  {
   "property": "C72",
   "status": "partial",
   "theorems": [
    "c72_quantile_refuted",
    "c72_mean_refuted",
    "c72_minmax_infinite_refuted",
    "c72_minmax_exact"
   ],
   "note": "Refuted: the rank is taken over all cells, so a field with many zeros is refused; the mean of three copies of 0.1 exceeds 0.1; the minimum of [inf] is f64::MAX."
  },
  {
   "property": "C73",
   "status": "partial",
   "theorems": [
    "c06_centre",
    "c07_cells",
    "c21_lookup",
    "c06_centre_refuted",
    "c07_equal_widths_refuted",
    "c21_height_refuted"
   ],
   "note": "False: cell_id scales by n-1 while centres are spaced by (hi-lo)/n; the cylindrical lookup takes the nearest upper edge. The exact lookup is C06, C07, C21."
  },
  {
   "property": "C74",
   "status": "partial",
   "theorems": [
    "c02_outside_inert",
    "c20_inside_and_add",
    "c02_cylindrical_refuted",
    "c02_cylindrical_height_refuted",
    "c08_slice_refuted",
    "c08_upper_limit_refuted",
    "c20_rounding_refuted",
    "c74_beyond_panics",
    "c74_any_height_added",
    "c74_upper_limit_panics"
   ],
   "note": "False: a position beyond the radius panics and one above the grid is added; slices panic at (and, rounded, just below) the upper limit; with 6 rings the position at the outer radius is found in no ring."
  },
  {
   "property": "C75",
   "status": "partial",
   "theorems": [
    "c11_new_zeros",
    "c35_mean",
    "c39_standard_deviation",
    "c40_sample_variance",
    "c11_fresh_refuted",
    "c35_reused_grid_refuted",
    "c39_reused_grid_refuted",
    "c40_reused_grid_refuted",
    "c75_velocity_used",
    "c75_velocity_right_iff",
    "c75_temperature_used"
   ],
   "note": "False: weights are carried over."
  },
  {
   "property": "C76",
   "status": "partial",
   "theorems": [
    "c13_shape_invariant",
    "c22_components",
    "c13_broadcast_refuted",
    "c22_outlier_refuted",
    "c17_border_refuted",
    "c17_mode2_debug",
    "c76_weights_part",
    "c76_divide_exact"
   ],
   "note": "False: one-cell axes broadcast; neighbour outlier removal rewrites weights per component; border outliers panic with overflow checks."
  },
  {
   "property": "C77",
   "status": "partial",
   "theorems": [
    "c23_cylindrical",
    "c23_off_centre_refuted",
    "c35_cylindrical_modes_refuted",
    "c77_radial_iff"
   ],
   "note": "True when the axis is at the origin, false otherwise; r and theta are x and y."
  },
  {
   "property": "C78",
   "status": "partial",
   "theorems": [
    "c25_cloud",
    "c25_density",
    "c25_cloud_refuted",
    "c25_density_refuted",
    "c26_zero_refuted",
    "c41_selector_refuted",
    "c78_cloud_exact",
    "c78_density_exact",
    "c78_mean_speed_ignores"
   ],
   "note": "False: clouds and densities consult the length (and the upper end) of the radius list; id 0 means no filter; the mean speed ignores all but the time window."
  },
  {
   "property": "C79",
   "status": "partial",
   "theorems": [
    "c30_p_one_window",
    "c30_t_sound",
    "c30_t_forward",
    "c31_t",
    "c30_p_refuted",
    "c30_name_refuted",
    "c30_t_backward_refuted",
    "c31_p_refuted",
    "c79_unbuffered_panics",
    "c79_density_refuted"
   ],
   "note": "False: particle-ordered auxiliary reads return slots of the main buffer (wrong beyond 20000 timesteps) and unbuffered ones panic for two particles; time-ordered backward reads panic; set-up by name, access by index; a missing density dataset reads as 0 buffered, as the radius unbuffered."
  },
  {
   "property": "C80",
   "status": "partial",
   "theorems": [
    "c32_search",
    "c32_nearest_refuted",
    "c32_early_exit_refuted",
    "c80_gap_refuted"
   ],
   "note": "False: the search may stop at a neighbour or at anything within 0.01 s. In every gap wider than 0.02 s one of two requests on either side of its middle is answered with the farther record."
  },
  {
   "property": "C81",
   "status": "partial",
   "theorems": [
    "c37_shares",
    "c44_share",
    "c46_rows",
    "c37_short_refuted",
    "c44_last_timestep_refuted",
    "c46_last_timestep_refuted"
   ],
   "note": "False: loops stop before the last timestep(s)."
  },
  {
   "property": "C82",
   "status": "partial",
   "theorems": [
    "c38_counts",
    "c38_enclosed",
    "c38_below_refuted",
    "c38_nan_refuted",
    "c38_maximum_refuted",
    "c82_nan_first",
    "c82_below_first",
    "c82_counted_below_max"
   ],
   "note": "False: samples below the range or without a speed are counted in bin 0; the fastest sample is in no bin."
  },
  {
   "property": "C83",
   "status": "partial",
   "theorems": [
    "c39_standard_deviation",
    "c42_standard_deviation",
    "c43_upper_bound",
    "c45_bound",
    "c39_nan_refuted",
    "c42_empty_layer_refuted",
    "c43_at_most_one_refuted",
    "c43_absent_type_refuted",
    "c45_mean_of_squares_refuted",
    "c83_empty_layers",
    "c83_absent_type",
    "c83_msd_iff"
   ],
   "note": "False: three samples of 0.1 give NaN; empty layers count; a perfectly mixed bed has n/(n-1); an absent type panics; msd is (sum d)^2/n, right exactly where at most one move has a length."
  },
  {
   "property": "C84",
   "status": "partial",
   "theorems": [
    "c47_times",
    "c47_one_particle",
    "c48_intervals",
    "c47_landing_refuted",
    "c47_mixed_refuted",
    "c48_fall_refuted",
    "c48_rise_refuted",
    "c84_landing_missed",
    "c84_jumps_missed",
    "c84_rise_reported"
   ],
   "note": "False: landing on the boundary is missed, rows that change particle mix crossings, jumps over both boundaries are missed or end a trip."
  },
  {
   "property": "C85",
   "status": "partial",
   "theorems": [
    "c51_rows",
    "c51_affine",
    "c52_velocity",
    "c51_spacing_refuted",
    "c51_extrapolates_refuted",
    "c51_at_sample_refuted",
    "c51_blank_refuted",
    "c52_middle_refuted",
    "c146_at_sample",
    "c146_tail_blank",
    "c146_falls_behind"
   ],
   "note": "False: the last gap is doubled, values are extrapolated, samples are not reproduced, the tail can be NaN, and the derivative is taken one sample late."
  },
  {
   "property": "C86",
   "status": "proved",
   "theorems": [
    "c86_quiver_plane",
    "c86_quiver_depth",
    "c86_grid",
    "c86_vector"
   ],
   "note": "Depth averages except along axis 1 (see C95)."
  },
  {
   "property": "C87",
   "status": "proved",
   "theorems": [
    "c87_table"
   ],
   "note": ""
  },
  {
   "property": "C88",
   "status": "proved",
   "theorems": [
    "c88_map_plane",
    "c88_map_depth",
    "c88_contour_plane",
    "c88_contour_depth",
    "c88_contour_range"
   ],
   "note": ""
  },
  {
   "property": "C89",
   "status": "proved",
   "theorems": [
    "c89_map_plane",
    "c89_map_depth",
    "c89_self",
    "c89_plot_plane",
    "c89_plot_depth",
    "c89_plot_vector",
    "c89_plot_vector_depth",
    "c89_diagonal"
   ],
   "note": "Positions along axis 1: see C95; vector diagonal: see C98."
  },
  {
   "property": "C90",
   "status": "proved",
   "theorems": [
    "c90_plain"
   ],
   "note": "Exact (real) arithmetic."
  },
  {
   "property": "C91",
   "status": "proved",
   "theorems": [
    "c91_max",
    "c91_min",
    "c91_min_max",
    "c91_fitted"
   ],
   "note": "Exact (real) arithmetic."
  },
  {
   "property": "C92",
   "status": "proved",
   "theorems": [
    "c90_plain",
    "c92_scale"
   ],
   "note": "Exact (real) arithmetic."
  },
  {
   "property": "C93",
   "status": "proved",
   "theorems": [
    "c93_unit",
    "c93_same_size"
   ],
   "note": "Exact (real) arithmetic."
  },
  {
   "property": "C94",
   "status": "proved",
   "theorems": [
    "c94_accepted",
    "c94_refused",
    "c94_wrong_kind",
    "c94_negative",
    "c94_no_such_plane",
    "c94_no_plot",
    "c94_parity",
    "c94_parity_refused",
    "c94_wraps_refuted"
   ],
   "note": "c94_wraps_refuted: the exception named in the statement."
  },
  {
   "property": "C95",
   "status": "partial",
   "theorems": [
    "c86_quiver_depth",
    "c89_map_plane",
    "c95_depth_panics_refuted",
    "c95_depth_misplaced_refuted",
    "c95_parity_misplaced_refuted"
   ],
   "note": "False: along axis 1 the y positions are used: the plot panics or is misplaced."
  },
  {
   "property": "C96",
   "status": "partial",
   "theorems": [
    "c93_unit",
    "c96_max_refuted",
    "c96_minmax_refuted"
   ],
   "note": "False: min_size is validated twice, so max needs min and vice versa."
  },
  {
   "property": "C97",
   "status": "partial",
   "theorems": [
    "c91_min",
    "c92_scale",
    "c97_single_cell_refuted",
    "c97_zero_arrow_refuted",
    "c97_uniform_refuted"
   ],
   "note": "False: single-cell planes panic, zero arrows under min and colours of uniform fields are NaN."
  },
  {
   "property": "C98",
   "status": "partial",
   "theorems": [
    "c89_diagonal",
    "c98_vector_diagonal_refuted",
    "c98_first_component"
   ],
   "note": "False: only the first component is considered."
  },
  {
   "property": "C99",
   "status": "proved",
   "theorems": [
    "c99_from_data",
    "c99_every_sample_counted"
   ],
   "note": ""
  }
 ]
}
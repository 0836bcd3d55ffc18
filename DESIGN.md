# Formal model of up4 (uPPPP) in Rocq/Coq 8.16.1

## 1. Approach

The Rust code is read as text and transcribed function by function into total,
computable Gallina functions.  Conventions used everywhere:

* **Numbers.**  Code is generic over a record of floating-point operations
  (`Num.v`, class `Num F`).  Structural theorems are proved for *any* operations.
  Two instances are used: `f64` = Flocq's `binary_float 53 1024` with
  round-to-nearest-even (bit-exact IEEE double arithmetic, computable by
  `vm_compute`), and `R` (ideal arithmetic, for algebraic laws).  Every property says
  which one it is about.
* **usize** is `N`; subtraction goes through `usub bld a b`, which panics in a
  debug build and wraps modulo 2^64 in a release build (`bld : build`).
  Addition and multiplication of sizes are unbounded (sizes are bounded by memory).
* **Panics** are an explicit value `Panic` of `res A`; Rust `Result` is
  `option`/`sum` inside `res`.
* **ndarray** arrays are a shape and a function on indices; reads and writes out of
  bounds are `Panic`.
* **Loops** are folds over `range a b`, or fuel-based recursion when the
  Rust loop is a `while`; fuel exhaustion is a distinct value excluded by theorem.
* **Oracles** (arguments of the model, universally quantified in theorems):
  `atan2`, `sin`/`cos`, polynomial fitting, HDF5 / CSV / VTK file contents.

Files (`rocq/theories`): `*Model.v` files (`Base`, `Num`, `NDArray`, `GridModel`, `SelModel`,
`DataModel`, `FunModel`, `MixModel`, `CondModel`, `ConvModel`, `PyModel`, `PlotModel`,
`PyGridModel`, ...) contain definitions that transcribe the code, each with a comment citing file
and lines.  `*Spec.v` files and the "Vocabulary" sections at the head of the `Properties*.v`
files contain the specification vocabulary (samples of a dataset, samples in a cell, means,
crossings, ...), written without the model's loops.  The remaining files contain lemmas and,
named `cNN_*`, the property theorems; `Example cNN_case*` beside them show that concrete
non-trivial inputs meet the hypotheses.

## 2. Plan per property

Each line: status, what is modelled and how it is proved, where the theorems are. "Counterexamples" are universally or concretely stated theorems (`*_refuted`) showing that the code violates the expectation; the part that does hold is listed with them.

* **C01 Cell lookup never leaves the array** (proved) — cartesian cell_id over f64 (Flocq); monotone rounding bounds (x-lo)/(hi-lo)*(n-1) in [0,n-1] for positions inside. Theorems in `PropertiesGrid.v`. IEEE doubles; axes of 1 to 2^53+1 cells.
* **C02 Positions outside the grid are inert** (proved) — add_value/insert/add_trajectory_value/get_value transcribed; outside = is_inside false, result is the same grid. Theorems in `PropertiesGrid.v`. Doubles.
* **C03 Adding a value touches exactly one cell** (proved) — set3 frame lemma: at3 of every other cell unchanged; f64 and any Num. Theorems in `PropertiesGrid.v`. IEEE doubles, Cartesian grids; cylindrical grids in c20.
* **C04 A fresh grid accumulates any history exactly** (proved) — mfold invariant over the list of additions: data = left fold of the values looked up in the cell, weight = their count. Theorems in `PropertiesGrid.v`. IEEE doubles, any history.
* **C05 Cell index is monotone in the position** (proved) — monotone rounding of subtraction, division, multiplication and truncation. Theorems in `PropertiesGrid.v`. IEEE doubles.
* **C06 Which cell the published centres are found in** (proved) — cell centre formula of cart_new evaluated at R; exact index derived, refutation kept in C73. Theorems in `PropertiesGrid.v`. Real arithmetic.
* **C07 Extent of the cells** (proved) — preimage of a cell index as a half-open interval at R. Theorems in `PropertiesGrid.v`. Real arithmetic.
* **C08 Slicing at a position selects the plane containing it** (proved) — slice = slice_idx at the looked up index; R. Theorems in `PropertiesGrid.v`. Real arithmetic.
* **C09 A new grid has the published geometry** (proved) — cart_new evaluated at R: edges, centres, spacing. Theorems in `PropertiesGrid.v`. Shape, zeros and limits in doubles; spacing of centres in ideal arithmetic.
* **C10 Trajectory values are conserved** (proved) — cell_ids_in_trajectory transcribed with its loops; sum over ids3 of the increments = value (R). Theorems in `PropertiesGrid.v`. Totals in ideal arithmetic; outside end: in doubles.
* **C11 new_zeros clears the data and keeps the geometry** (proved) — record projection plus history invariant (wf_grid). Theorems in `PropertiesGrid.v`. 
* **C12 divide_by_weight turns sums into means** (proved) — pointwise division and its frame; means by C04. Theorems in `PropertiesGrid.v`. Mean in ideal arithmetic for any history; NaN and the exact quotient in doubles.
* **C13 Shape invariant** (proved) — wf_grid (all arrays have the geometry's shape) preserved by each operation, induction over op sequences. Theorems in `PropertiesGrid.v`. 
* **C14 Collapse along one axis is the weighted mean** (proved) — collapse with NaN skipping; weighted mean at R, and the exact f64 fold without NaN. Theorems in `PropertiesGrid.v`. Weighted mean, bounds and totals in ideal arithmetic; exact expression with NaN handling in doubles.
* **C15 Collapse along two axes** (proved) — composition of two collapses, remaining axis order. Theorems in `PropertiesGrid.v`. 
* **C16 Outlier removal modes 0 and 1** (proved) — pointwise map; NaN never above the threshold. Theorems in `PropertiesGrid.v`. Statement as given proved; note that mode 0 with a negative threshold leaves cells above it.
* **C17 Outlier removal mode 2** (proved) — loops over neighbours as folds; in-place order is modelled; frame for cells not above the threshold. Theorems in `PropertiesGrid.v`. Doubles; both builds.
* **C18 Slice by index returns exactly the plane** (proved) — index permutation lemmas, one per axis. Theorems in `PropertiesGrid.v`. 
* **C19 Cylindrical rings have equal volume** (proved) — ring edges sqrt formula of cyl_new at R; areas equal by algebra. Theorems in `PropertiesCyl.v`. Ideal arithmetic.
* **C20 Cylindrical lookup finds the ring** (proved) — argmin search over ring edges (fold invariant), atan2/sqrt instantiated with true functions (PolarR). Theorems in `PolarR.v`, `PropertiesCyl.v`. Real arithmetic; c21_lookup with the real PI and atan2.
* **C21 Cylindrical lookup finds the angle and height cell** (proved) — same search for angle and height edges. Theorems in `PolarR.v`, `PropertiesCyl.v`. Real arithmetic, real PI and atan2.
* **C22 Vector grids act component-wise** (proved) — three component grids stay synchronized: simulation with the scalar grid ops. Theorems in `PropertiesCyl.v`. Doubles, any history.
* **C23 Cylindrical velocity components** (proved) — orthonormality of (e_r, e_theta) at R. Theorems in `PropertiesCyl.v`. Real arithmetic.
* **C24 Radius selection** (proved) — case analysis of the filter lists, f64 comparisons. Theorems in `PropertiesSel.v`. 
* **C25 Cloud and density selection** (proved) — same, for the list lengths the code consults. Theorems in `PropertiesSel.v`. Doubles.
* **C26 Particle id selection** (proved) — same. Theorems in `PropertiesSel.v`. 
* **C27 Default selector accepts everything; filters compose conjunctively** (proved) — conjunction of the above, in every Num. Theorems in `PropertiesSel.v`. 
* **C28 Buffered reading is transparent (PData)** (proved) — buffered reader as a state machine; invariant 'buffer = window of the file' over every read sequence. Theorems in `PropertiesData.v`. 
* **C29 Buffered reading is transparent (TData)** (proved) — same for time-major files with per-timestep groups. Theorems in `PropertiesData.v`. 
* **C30 Auxiliary buffers are transparent** (proved) — same for auxiliary buffers. Theorems in `PropertiesData.v`. Any history of in-range operations.
* **C31 Unbuffered equals buffered** (proved) — unbuffered read vs invariant. Theorems in `PropertiesData.v`. Any history of in-range operations.
* **C32 Nearest timestep search** (proved) — loop with early exits as fuelled recursion, fuel sufficiency proved. Theorems in `PropertiesData.v`. Doubles.
* **C33 Rotation is a rigid motion** (proved) — rotation matrix at R: distances, angles and inverse. Theorems in `PropertiesData.v`. Ideal arithmetic.
* **C34 numberfield counts every accepted particle once** (proved) — field functions run over any data manager (class reads_as); fold over timesteps and particles equals the list comprehension `observed`. Theorems in `PropertiesFun.v`. Any manager that reads as the recorded file, any grid, any selector; on PData and TData files in particular.
* **C35 velocityfield is the mean over accepted samples** (proved) — same, per-mode value functions. Theorems in `PropertiesFun.v`. 
* **C36 vectorfield averages each component** (proved) — same, three components. Theorems in `PropertiesFun.v`. Fresh grid.
* **C37 occupancyfield is a fraction of the observed time** (proved) — same, with time differences; sums at R. Theorems in `FunOcc.v`. Also end to end for both file kinds (particle-ordered: files of one window).
* **C38 Histogram totals** (proved) — histogram counting loop; Rust's `as usize` saturation modelled. Theorems in `FunHist.v`. Counts in doubles, edges over the reals.
* **C39 Granular temperature is a per-cell standard deviation** (proved) — two-pass algorithm; per-cell sum of squares / weights. Theorems in `FunTemp.v`. 
* **C40 Dispersion is a sample variance** (proved) — start cell / displaced positions; sample variance identity at R. Theorems in `FunDisp.v`. 
* **C41 Mean velocity** (proved) — fold; f64 and R. Theorems in `FunTemp.v`. 
* **C42 Homogeneity index** (proved) — layers of the number field, standard deviation. Theorems in `FunTemp.v`. 
* **C43 Lacey mixing index** (proved) — Lacey index formula, variance bounds by Cauchy-Schwarz-type argument at R. Theorems in `FunLacey.v`. 
* **C44 Concentration field** (proved) — two number fields divided cell by cell. Theorems in `FunMix.v`. 
* **C45 Mean squared displacement** (proved) — delays loop; distances along the path (`travelled`). Theorems in `FunMsd.v`. 
* **C46 Extract returns the requested range** (proved) — loop over timesteps; rows of one particle. Theorems in `FunExtract.v`. 
* **C47 Circulation times are time differences of crossings** (proved) — crossing detector as a state machine over the samples; specification by index of consecutive crossings. Theorems in `FunCirc.v`. 
* **C48 Two-boundary circulation** (proved) — two-flag state machine; intervals are ordered and disjoint by invariant. Theorems in `FunCirc2.v`. 
* **C49 Sort lists are permutations** (proved) — argsort as a function of the id list; Permutation and Sorted. Theorems in `ConvSort.v`. Stable permutation that sorts the keys, applied consistently to scalar and to vector arrays.
* **C50 Sorting CSV rows** (proved) — stable insertion sort model of sort_by; Permutation, Sorted, stability. Theorems in `ConvSort.v`. Rows are permuted, sorted by the column, stably; NaN keys panic.
* **C51 Resampling onto a regular time base** (proved) — interpolation loop transcribed with its cursor; affine data reproduced at R. Theorems in `ConvInterp.v`. 
* **C52 Velocity from local polynomial fits** (proved) — window loop; polyfit and powf are parameters. Theorems in `ConvVel.v`. The polynomial fit (crate) and powf are parameters with stated properties.
* **C53 CSV conversion: one timestep per positive time** (proved) — row filter of the converter; csv crate = table of strings/parsed doubles. Theorems in `PropertiesCsv.v`. Exact set of written rows (doubles, NaN-free times); refusal is an iff; also for computed velocities; resampling without velocities is always refused.
* **C54 CSV header: counts, times, lowest values and means** (proved) — running min/max/mean folds; f64 for min, R/f64 for means. Theorems in `PropertiesCsv.v`. Ranges, means, counts and times of the header, for every setting of the converter.
* **C55 A converted CSV file reads back as written** (proved) — composition of converter and PData reader. Theorems in `PropertiesCsv.v`. End to end with the reader of C28, any history of reads. (c55_length_refuted: the radius, id and type datasets are longer than the number of timesteps when rows were dropped; the readers do not look at the excess.)
* **C56 VTK conversion keeps file order and particle order** (proved) — VTK files as records of fields; sort lists applied. Theorems in `ConvVtk.v`. Fields as returned by the VTK parser; ids sorted stably; doubles; end to end with the TData reader of C29.
* **C57 VTK header: times, lowest values, means** (proved) — folds over files. Theorems in `ConvVtk.v`. Doubles, any sequence of files. The exact condition for the highest value is the second clause of range_recorded.
* **C58 Grouping rows by particle id** (proved) — id grouping loop. Theorems in `ConvIds.v`. Doubles. (c58_singletons_refuted: with one row per particle the number of steps is 0.)
* **C59 Chained CSV: which trajectories are written** (proved) — state machine splitting a table into trajectories. Theorems in `ConvIdChain.v`. Doubles, NaN-free times, seven columns, velocities read from the file (no interpolation).
* **C60 Indexing a dataset** (proved) — __getitem__ transcribed, over either manager, any history. Theorems in `PyItem.v`. Both file kinds, after any history; Z indices as passed by Python.
* **C61 File kind dispatch** (proved) — attribute dispatch. Theorems in `PyItem.v`. All attribute values.
* **C62 Binary threshold comparison** (proved) — sorting, index arithmetic, quantile rank. Theorems in `PyStat.v`. Doubles.
* **C63 NaN-aware statistics** (proved) — filter NaN then fold. Theorems in `PyStat.v`. Exact formula in doubles, bounds over the reals.
* **C64 minmax, meshgrid and flatten** (proved) — array functions. Theorems in `PyStat.v`. minmax for doubles, the rest for any numbers.
* **C65 Out-of-range reads** (partial) — reads at index >= ntimesteps evaluated in the state machine. Theorems in `PropertiesData.v`. False of the code one past the end, after any history (stale data returned), and for time-ordered files without overflow checks anywhere past the end; particle-ordered files further past the end are refused in every build, time-ordered ones with overflow checks (proved).
* **C66 CSV header: highest values and sample rate** (partial) — fold of max starting at f64::MIN evaluated. Theorems in `PropertiesCsv.v`. Refuted: the sample rate is always 0; the highest value of a quantity that only falls is f64::MIN (third clause of range_recorded in c54_header). Proved: the highest value is right whenever a later value reaches the first.
* **C67 VTK header: number of particles** (partial) — header fold. Theorems in `ConvVtk.v`. Refuted: the particle number is the largest id, not a count (ids 3 and 7: header says 7). Highest values: exact condition in c57_header (range_recorded); a quantity that only falls is recorded as f64::MIN.
* **C68 Id-labelled CSV: one particle per id** (proved) — idline converter: per-id tables interpolated on the common clock, written per timestep. Theorems in `ConvIdChain.v`. Doubles, NaN-free times, eight columns, velocities read from the file (no interpolation).
* **C69 Files with several particles lose nothing** (partial) — witness tables. Theorems in `ConvIdChain.v`, `ConvIds.v`, `PropertiesMulti.v`. False: the last trajectory of a chain is never written, nor are those of fewer than ten lines; the header always says one particle, so readers are shown only the first; a line not later than all before it reads as a particle at rest in the origin.
* **C70 One CSV file per timestep** (proved) — files zipped with times. Theorems in `PropertiesMulti.v`. Doubles, seven columns. (c70_nparticles_refuted: the number of particles in the header is that of the last file.)
* **C71 Indexing follows the Python sequence protocol** (partial) — Python iteration/slice semantics over the __getitem__ model. Theorems in `PyItem.v`. Refuted: a slice whose step does not divide the span panics, a reversed one gives zeros, an empty one with start beyond stop panics, data[n] gives an old timestep.
* **C72 Array helpers at the edges** (partial) — witness arrays. Theorems in `PyStat.v`. Refuted: the rank is taken over all cells, so a field with many zeros is refused; the mean of three copies of 0.1 exceeds 0.1; the minimum of [inf] is f64::MAX.
* **C73 Published positions agree with the lookup** (partial) — counterexamples by evaluation, with the exact lookup theorems. Theorems in `PolarR.v`, `PropertiesCyl.v`, `PropertiesGrid.v`. False: cell_id scales by n-1 while centres are spaced by (hi-lo)/n; the cylindrical lookup takes the nearest upper edge. The exact lookup is C06, C07, C21.
* **C74 No position makes a grid panic** (partial) — counterexamples. Theorems in `PropertiesCyl.v`, `PropertiesExact.v`, `PropertiesGrid.v`. False: a position beyond the radius panics and one above the grid is added; slices panic at (and, rounded, just below) the upper limit; with 6 rings the position at the outer radius is found in no ring.
* **C75 Results do not depend on what the grid held before** (partial) — counterexamples on reused grids. Theorems in `FunDisp.v`, `FunTemp.v`, `PropertiesExact.v`, `PropertiesFun.v`, `PropertiesGrid.v`. False: weights are carried over.
* **C76 Grid operations keep the shape and the shared weights and do not panic** (partial) — counterexamples. Theorems in `PropertiesCyl.v`, `PropertiesGrid.v`. False: one-cell axes broadcast; neighbour outlier removal rewrites weights per component; border outliers panic with overflow checks.
* **C77 Radial and angular velocity components** (partial) — counterexamples. Theorems in `PropertiesCyl.v`, `PropertiesExact.v`, `PropertiesFun.v`. True when the axis is at the origin, false otherwise; r and theta are x and y.
* **C78 Filters are independent of each other** (partial) — counterexamples. Theorems in `FunTemp.v`, `PropertiesExact.v`, `PropertiesSel.v`. False: clouds and densities consult the length (and the upper end) of the radius list; id 0 means no filter; the mean speed ignores all but the time window.
* **C79 Auxiliary and unbuffered reads are transparent** (partial) — counterexamples. Theorems in `PropertiesData.v`, `PropertiesExact.v`. False: particle-ordered auxiliary reads return slots of the main buffer (wrong beyond 20000 timesteps) and unbuffered ones panic for two particles; time-ordered backward reads panic; set-up by name, access by index; a missing density dataset reads as 0 buffered, as the radius unbuffered.
* **C80 The closest timestep is the nearest** (partial) — counterexamples. Theorems in `PropertiesData.v`. False: the search may stop at a neighbour or at anything within 0.01 s. In every gap wider than 0.02 s one of two requests on either side of its middle is answered with the farther record.
* **C81 Every recorded timestep counts** (partial) — general statements: the last timestep never matters. Theorems in `FunExtract.v`, `FunMix.v`, `FunOcc.v`. False: loops stop before the last timestep(s).
* **C82 Histogram counts exactly the samples in its range** (partial) — counterexamples. Theorems in `FunHist.v`, `PropertiesExact.v`. False: samples below the range or without a speed are counted in bin 0; the fastest sample is in no bin.
* **C83 Statistics in doubles are what they claim** (partial) — counterexamples by vm_compute in bit-exact doubles. Theorems in `FunLacey.v`, `FunMsd.v`, `FunTemp.v`, `PropertiesExact.v`. False: three samples of 0.1 give NaN; empty layers count; a perfectly mixed bed has n/(n-1); an absent type panics; msd is (sum d)^2/n, right exactly where at most one move has a length.
* **C84 Every crossing is noticed and belongs to one particle** (partial) — counterexamples. Theorems in `FunCirc.v`, `FunCirc2.v`, `PropertiesExact.v`. False: landing on the boundary is missed, rows that change particle mix crossings, jumps over both boundaries are missed or end a trip.
* **C85 Resampling and velocities are exact** (partial) — counterexamples. Theorems in `ConvInterp.v`, `ConvVel.v`, `PropertiesResample.v`. False: the last gap is doubled, values are extrapolated, samples are not reproduced, the tail can be NaN, and the derivative is taken one sample late.
* **C86 Vector plots show each cell of the plane once** (proved) — quiver/unit vector point lists as folds over the plane; each cell once, at its centre with its components. Theorems in `PropertiesPlot.v`, `PropertiesPlotCheck.v`. Depth averages except along axis 1 (see C95).
* **C87 The table behind a grid plot** (proved) — table of (position, position, value). Theorems in `PropertiesMap.v`. 
* **C88 Scalar maps and contours show the field** (proved) — row/column orientation of the plotted matrix. Theorems in `PropertiesMap.v`. 
* **C89 Parity maps and parity plots compare like with like** (proved) — cell-by-cell pairing of both grids. Theorems in `PropertiesParity.v`. Positions along axis 1: see C95; vector diagonal: see C98.
* **C90 Arrows are drawn as documented** (proved) — arrow head geometry at R. Theorems in `PropertiesArrow.v`. Exact (real) arithmetic.
* **C91 Arrow size limits hold** (proved) — rescaling by bounds at R. Theorems in `PropertiesArrow.v`. Exact (real) arithmetic.
* **C92 Arrow colours follow the speed** (proved) — colour index formula at R. Theorems in `PropertiesArrow.v`. Exact (real) arithmetic.
* **C93 Unit vector plots show directions only** (proved) — normalisation at R. Theorems in `PropertiesArrow.v`. Exact (real) arithmetic.
* **C94 Plot arguments are checked** (proved) — argument validation of up4/plotting.py and libplot.rs. Theorems in `PropertiesPlotCheck.v`. c94_wraps_refuted: the exception named in the statement.
* **C95 Depth averages and parity along the second axis use the right positions** (partial) — counterexamples. Theorems in `PropertiesParity.v`, `PropertiesPlot.v`, `PropertiesPlotCheck.v`. False: along axis 1 the y positions are used: the plot panics or is misplaced.
* **C96 Unit vector plots accept the documented sizes** (partial) — counterexamples. Theorems in `PropertiesArrow.v`, `PropertiesPlotCheck.v`. False: min_size is validated twice, so max needs min and vice versa.
* **C97 Degenerate fields can be plotted** (partial) — counterexamples. Theorems in `PropertiesArrow.v`, `PropertiesPlotCheck.v`. False: single-cell planes panic, zero arrows under min and colours of uniform fields are NaN.
* **C98 The diagonal of a vector parity plot spans its points** (partial) — counterexamples. Theorems in `PropertiesExact.v`, `PropertiesParity.v`, `PropertiesPlotCheck.v`. False: only the first component is considered.
* **C99 A Cartesian grid made from a dataset covers its recorded range** (proved) — Grid.__new__ transcribed (PyGridModel), composed with cart_new and with numberfield. Theorems in `PropertiesPyGrid.v`. 
* **C100 A Cartesian grid made from a converted file contains every position written** (proved) — composition converter -> header -> Grid -> is_inside/cell_id. Theorems in `PropertiesPyGrid.v`. 
* **C101 Grid honours its arguments or raises** (proved) — case analysis of Grid.__new__ over any Num. Theorems in `PropertiesPyGrid.v`. isinstance checks, which only raise, are not modelled.
* **C102 A cylindrical grid made from a dataset is the cylinder around the recorded box** (proved) — cyl_new + PolarR. Theorems in `PropertiesPyGrid.v`. Exact (real) arithmetic.
* **C103 A cell size gives the number of whole cells that fit** (proved) — truncation of the quotient at R (Ztrunc). Theorems in `PropertiesPyGrid.v`. Exact (real) arithmetic.
* **C104 Limits and cell sizes are honoured in every combination** (partial) — counterexamples. Theorems in `PropertiesPyGrid.v`. False: negative limits are refused, data+limits+cell_size raises (cartesian) or counts along the range of the data (cylindrical), a size above the range gives no cells, rounding loses a cell.
* **C105 remove_outliers follows its documented modes** (partial) — evaluation of the mode dispatch. Theorems in `PropertiesGrid.v`, `PropertiesPyGrid.v`. False: the modes are off by one (0 zero, 1 threshold, 2 mean) and mode 3 panics.
* **C106 Grids made from data contain every recorded particle** (partial) — counterexamples composed with the converters. Theorems in `PropertiesPyGrid.v`. False: if a coordinate only falls, its recorded maximum is f64::MIN and the grid contains nothing; the corners of the recorded box are outside the cylinder.
* **C107 Velocities computed for every particle of a CSV file with several particles** (proved) — ConvFitted: the row loops of both velocity routines against the specification `fitted`; grouping and scanning lemmas of C58/C59; `write_all`. Theorems in `ConvFitted.v`. 
* **C108 Resampling plus velocities for every particle of a CSV file with several particles** (proved) — C51 lifted to samples (`resampled`), then as C107; NaN-freeness of k*(T/n) from Bmult_correct/Bdiv_correct. Theorems in `ConvFitted.v`. The resampled times may fall (last sample before the one before it), so success is only stated for sorted results.
* **C109 Lines lost at the ends of a trajectory, and very long trajectories** (proved) — corollaries of C107 and C108. Theorems in `ConvFitted.v`. 
* **C110 Converter.vtk stores the particles of every file** (proved) — LibConvModel transcribes libconv.rs and the vtkio readers; the readers are proved to satisfy C56's `content`, then C56. Theorems in `PropertiesLibConv.v`. 
* **C111 A missing VTK field makes the conversion fail** (proved) — a missing field is Panic (legacy) or the empty list (XML), on which sort_by_array panics; mfold over the files. Theorems in `PropertiesLibConv.v`. 
* **C112 Folder conversion does not depend on the order in which the folder is listed** (proved) — uniqueness of the sorted list of a set under a strict order. Theorems in `PropertiesLibConv.v`. The natural order (natord crate) is any strict total order.
* **C113 vtk_from_folder works for .vtu and .vtp files** (partial) — counterexample (all folders without .vtk names). Theorems in `PropertiesLibConv.v`. False: only names ending in .vtk are considered, whatever the filter, so a folder of .vtu or .vtp files is always refused.
* **C114 The CSV entry points pass their arguments on** (proved) — evaluation of the wrappers. Theorems in `PropertiesLibConv.v`. 
* **C115 The CSV converters work with their default arguments** (partial) — the velocity column is NaN in every row after column selection, sorting and interpolation. Theorems in `PropertiesDefault.v`, `PropertiesLibConv.v`. False: by default Converter.csv neither reads nor computes velocities and then always panics; the default method of csv_multi contains quotation marks, so nothing is written; and with a method given, its other defaults read the text with quotation marks as separator and comment character. The defaults of csv_multi_files do work (C164).
* **C116 Earlier calls leave no trace in a Data object** (proved) — SessionModel: every method as one call on (manager, selector); FunRefine: each function respects a relation of manager states (proof by its loops); invariant of the buffers under any requests, including failed ones. Theorems in `PropertiesSession.v`. 
* **C117 The layout of a file does not change the answers** (proved) — the same refinement between p_mgr and t_mgr. Theorems in `PropertiesSession.v`. Beyond 20000 timesteps auxiliary reads of particle-ordered files are wrong: C79.
* **C118 Every analysis sees exactly the file, at every point of a session** (proved) — the session invariant of C116 gives the `recorded` relation every function theorem assumes. Theorems in `PropertiesPipeline.v`. Time-ordered files: all datasets of a timestep equally long.
* **C119 Particle counts are right from the original files to the number field** (proved) — composition of C56/C53/C70 (conversion), C118 (reading), C34 (number field), C99/C100 (grid); by_id permutes positions, counting is invariant under permutation. Theorems in `PropertiesPipeline.v`. Up to 2^53 positions (beyond, f64 cannot count) and finite times (the default window accepts only those).
* **C120 A file written by the multi-particle csv converter can be opened** (partial) — PData::new on the file described by holds_all. Theorems in `PropertiesPipeline.v`. False: if the first trajectory written has fewer lines than the longest (and than 20000), or none was written, opening panics. Proved: it opens when the first is the longest.
* **C121 Aligning two data sets changes the comparison** (partial) — unfolding of align, any number type. Theorems in `PropertiesComp.v`. False: align only prints; the grids and the flag stay as compare set them.
* **C122 Aligning works for any two data sets** (partial) — per offset: the number fields hold counts (C34), binary_threshold accepts iff the rank is below the number of occupied cells (C62); occupied cells are at most the positions. Theorems in `PropertiesComp.v`. False: with at most 10000 positions in either data set align panics. Proved: it finishes exactly if at each offset more than 10000 cells of both grids are occupied; a lattice of 99^3 positions is such a case.
* **C123 Aligning prints the mismatch of every offset and the best offset so far** (proved) — invariant of the scan over offsets: printed entries so far, best = first minimum; sums of 0/1 in f64 are exact up to 2^53. Theorems in `PropertiesComp.v`. The mismatches (c123_prints) for Cartesian grids.
* **C124 The two boxes that align compares have the same size and contain their data, whatever the units** (partial) — real arithmetic; C05 gives the cell of a position. Theorems in `PropertiesComp.v`. False for different units (width ratio above 800): the correction is applied in the wrong direction, so the second data set falls into one cell or its box covers less than 1/800000 of it. Proved for width ratios up to 800.
* **C125 Every Data method answers from the recorded timesteps, its own arguments and the last set_time** (proved) — session invariant (C110-C112) gives `recorded` for the state reached; then the per-analysis theorems C34-C63 through the argument dispatch of SessionModel. Theorems in `PropertiesAnswers.v`. c125_p_session/c125_t_session: after any earlier calls the object still reads the file (recorded) with the window of the last set_time; the other theorems give each method its answer in such a state. temperature, lacey, dispersion, msd and homogenity in ideal arithmetic; the methods over pairs of timesteps assume that reads ahead work, as C30 and C79 say. What documented answers the code itself misses (C65-C85) is stated there.
* **C126 A conversion that fails or is interrupted never leaves a file that opens** (proved) — programs of HDF5 calls with a call budget (H5Model); invariant: the dataset `time array`, which every reader needs and which is written last, is missing until the program returns. Theorems in `PropertiesH5.v`. For any world (earlier file, number of calls before the interruption). HDF5 calls are taken to be atomic and in program order; an interruption inside a call, or writes that the operating system reorders, are not modelled.
* **C127 The file a finished conversion writes is the one that is opened: every name written is the name read** (proved) — refinement: the uninterrupted program against the converter function of ConvModel, by induction over particles/files with the groups of the file seen through injective names; then the readers by name. Theorems in `PropertiesH5.v`. c127_*_opens: the uninterrupted run, then Data(file), against the converter functions about which C53-C60, C68, C69, C107-C124 speak.
* **C128 Repeating a conversion after an interrupted attempt gives the same file** (proved) — the first call truncates, so the run does not depend on the file that was there. Theorems in `PropertiesH5.v`. 
* **C129 A failed conversion leaves an earlier output file usable** (partial) — refuted for every failure after the first call, same invariant as C126. Theorems in `PropertiesH5.v`. False: the output file is truncated by the first call, before the input is read. After any later failure or interruption nothing that opens is left, whatever the file held before.
* **C130 In doubles, the cell of a position is the cell of exact arithmetic up to a rounding allowance** (proved) — Flocq: relative error of (p - lo) / (hi - lo) * n in doubles (FloatErr), floor of a number near the exact one; refinement against the model instantiated at R. Theorems in `PropertiesFloat.v`. Cartesian grids. c130_exact compares with the same model run in real arithmetic.
* **C131 In doubles, the published cell centres are correct, increasing and looked up consistently** (proved) — Flocq: error of k * size + size / 2 + lo; position of the exact centre relative to the borders of the lookup. Theorems in `PropertiesFloat.v`. 
* **C132 In doubles, slicing at a position gives a plane that contains it up to rounding** (proved) — same error bound with n instead of n - 1 cells. Theorems in `PropertiesFloat.v`. 
* **C133 In doubles, averages are the exact averages up to an explicit bound** (proved) — Flocq: induction over the list of additions with the bound 2 k eps times the sum of absolute values (FloatSum); error of a root of a sum of three squares; combined with C12, C35, C36, C41. Theorems in `PropertiesMean.v`. Cartesian grids (the lookup on cylindrical grids in doubles is C140). Against the exact mean of the recorded doubles, which is what C12, C35, C36 and C41 state in real arithmetic.
* **C134 A vector field read from Python: arrays, slices and depth averages are those of its three components** (proved) — the three arrays are the components of the field (C36); a slice or collapse of the field is one of each component (C13, C14), the depth average by regrouping the weighted sums along a column. Theorems in `PropertiesWrap.v`. c134_depth_average and c134_slice_pos_ideal in real arithmetic, c134_vectorfield, c134_slice and c134_slice_pos in doubles.
* **C135 Printing a grid shows the statistics of its visited cells** (proved) — from the statistics of C63 and C88 over the cells in iteration order. Theorems in `PropertiesWrap.v`. 
* **C136 Printing a vector field shows the statistics of its visited cells** (partial) — refuted: NaN is absorbing for addition (induction over ndarray's eight running sums); the summary is a function of the first component only. In R the running sums give the plain sum. Theorems in `PropertiesWrap.v`. False: the printed mean and deviation are NaN as soon as one cell was never visited (neither skips NaN here), and only the first component is shown: two fields that differ in the others print the same; the deviation of a field of one cell is NaN. Proved: in real arithmetic the mean and the deviation (divided by one less than the number of cells) are those of the first component; the extremes printed are those of the cells of the first component that hold a number; a field without cells panics.
* **C137 Comparing two whole vector fields pairs equal cells and equal components; the differences are those named** (proved) — index arithmetic in the concatenation of the three components; the 2-D operations are element-wise on equal shapes. Theorems in `PropertiesWhole.v`, `PropertiesWrap.v`. 
* **C138 Asking from Python whether a point is in the grid, and for its cell** (proved) — from C01 on the grid the constructor returns. Theorems in `PropertiesWrap.v`. 
* **C139 The velocities of very long trajectories do not depend on the threads** (proved) — a transition system whose state is the set of index ranges still to do and the slots already written; invariant: written slots hold the row's value, unwritten ones lie in a range still to do, a recorded panic comes from some row; a measure that decreases with every step gives termination. Theorems in `PropertiesPar.v`. The work-stealing pool is a set of index ranges, each step splitting one, running the next item of one, or (after a panic) dropping one. What the row computation gives is C109; the signal check inside the items is not modelled.
* **C140 Cylindrical grids in doubles are close to the exact ones** (proved) — induction over the rings: boundary i squared lies between i R^2/n times (1-eps)^(4i+1) and (1+eps)^(4i+1), by Flocq's relative error of each product, sum and root (no underflow for limits of ordinary size); Bernoulli bounds turn the powers into linear terms; the arg-min over upper edges is compared with the exact edges through one error bound per edge. Theorems in `PropertiesCylFloat.v`. The angle is whatever atan2 returns (assumed of PI: a double between 3 and 4). What happens at the very rim, where the last boundary may fall below the radius, is C74; that nearest upper edge is not the enclosing sector or layer is in C20 and C74.
* **C141 In doubles, the granular temperature is the exact one up to an explicit bound** (proved) — a calculus of rounding errors (relative to a magnitude, plus underflow) for sums, products, quotients by exact numbers and square roots, applied to the one-pass formula; Cauchy-Schwarz bounds the square of the sum by n times the sum of squares. Theorems in `PropertiesVar.v`. That the result can be NaN where the exact variance is within the bound is c39_nan_refuted.
* **C142 In doubles, dispersion is the exact one up to an explicit bound** (proved) — the same calculus; ndarray's eight running sums by induction eight elements at a time; whole numbers add up exactly. Theorems in `PropertiesVar.v`. Given that the call returns (c40_returns).
* **C143 In doubles, the histogram's bins are the exact ones up to an explicit bound** (proved) — error analysis of the edges and of the quotient whose integer part is the bin, including overflow of the quotient; counts by c38_counts. Theorems in `PropertiesHistFloat.v`. Speeds are the computed ones.
* **C144 In doubles, the Lacey index is the exact one up to an explicit bound** (proved) — the calculus of rounding errors: shares correctly rounded, sums of squares, roots squared, quotient of two differences; counts exact as in c44_share. Theorems in `PropertiesMixFloat.v`. Given that the call returns (c43_returns).
* **C145 In doubles, the mean squared displacement is what ideal arithmetic gives, up to an explicit bound** (proved) — the distance from the error of a norm of three rounded differences; sums with relative and absolute errors; the weights and their sum are exact because each move lies in at most one cell. Theorems in `PropertiesMsdFloat.v`. Given that the calls return (c45_returns); what the ideal value means is C45.
* **C146 Resampled rows interpolate between the neighbours of the nearest sample and stay close to the motion** (proved) — invariant of the anchor (neither ahead of nor behind the nearest sample) by induction over the rows; the accuracy from the mean value theorem on the chord. Theorems in `PropertiesResample.v`. Ideal arithmetic (reals).
* **C147 Velocities computed from noisy positions of a smooth motion are accurate** (proved) — the residual of a least-squares fit is orthogonal to every quadratic, so the fit is as close to the motion's Taylor parabola as the data in the sum of squares; the slope of a quadratic from its values at three times. Theorems in `PropertiesVelocity.v`. Ideal arithmetic (reals); the polynomial fit (crate polyfit-rs) is any function that minimises the sum of squares.
* **C148 Resampling and differentiating samples of a smooth motion gives its positions and velocities** (proved) — composition of C146 (position error of each resampled row) with the window bound behind C147. Theorems in `PropertiesSmooth.v`. Ideal arithmetic (reals); the polynomial fit is any least-squares fit. What happens from the middle of the last gap on is c146_tail_blank.
* **C149 In doubles, fields on cylindrical grids return just when no sample lies beyond the last ring, with exact counts and accurate means** (proved) — list form of the accumulation invariants (only the observed samples need a cell), C140 for the cells, C133's summation bound for the means. Theorems in `PropertiesCylFields.v`. PI is assumed to be a double between 3 and 4; atan2 is whatever it returns. The vector field averages the converted velocities, assumed of ordinary size; the granular temperature's accuracy is c141_any_grid (C141).
* **C150 In doubles, which plane a slice at any position outside the limits is** (proved) — sign and size of the computed fraction through each rounded operation, then the saturating cast and ndarray's index rule. Theorems in `PropertiesSlice.v`. Between 512 and 2^66 lengths beyond the lower limit only 'a panic or some plane' is known; ndarray's s! macro casts the index to isize and counts negative numbers from the end.
* **C151 CSV columns can be counted from the end of the row** (proved) — the converters read the table only through the column picking, which ndarray's s! macro does with isize indices. Theorems in `PropertiesColumns.v`, `PropertiesMulti.v`. 
* **C152 Refused and out-of-range reads do no lasting harm** (partial) — the state left by a read that did not return is a function of its own (dm_after, in the order of the assignments in update); an invariant on windows over any list of indices; refutations by computing the wrapped sizes for all files. Theorems in `PropertiesRecover.v`. Proved for builds with overflow checks, and for every build as long as no index is more than one past the end. False otherwise: update stores the size of the window, which wraps around, before anything else; two out-of-range reads of a time-ordered file make later reads in range return timestep 0; after an out-of-range read of a particle-ordered file reads in range are refused, and refused ones can leave another timestep's data in the buffer, which is then returned for timestep 0.
* **C153 Depth averages are accurate in doubles** (proved) — a cell is described by its exact sum, sum of sizes and count, and the stored mean by an error in units of rounding; one weighted mean of such cells again satisfies the description with larger constants (induction over the cells), so one and two collapses compose. Theorems in `PropertiesDepth.v`. In doubles, any grid. Weights must be whole numbers or halves (every function of the library adds 1 per sample, except the occupancy field on Cartesian grids, which adds 1/2 for each end of a stay) whose sum is at most 2^52; fields with at most 2^46 samples in a line of cells.
* **C154 The occupancy field is accurate in doubles** (proved) — each cell holds a running sum of exact halves or zeros of the counted times in the order of the recording; induction over the stays bounds each sum and the total, a quotient bound gives the shares, and the exact indicator sums (FunOcc) give their total. Theorems in `PropertiesOccFloat.v`. In doubles, any grid. At most 2^46 stays.
* **C155 The homogeneity index is accurate in doubles** (proved) — the weights are exact multiples of 1/2 (induction over the stays); C154 gives each cell's share, the depth-average lemmas of C153 for half-integer weights give the layers, and a bound for mean, squares, quotient and root gives the index. Theorems in `PropertiesHomog.v`. In doubles, any grid with at least one layer and at most 2^42 cells along each axis. Absolute bound on the square of the index.
* **C156 Mean and standard deviation are accurate in doubles** (proved) — each stored distance is the exact one times one rounding factor; the forward bound for sums of squares (FloatVar) is applied to the stored distances, and the mean square distance to any number is the variance plus the squared distance of that number to the mean. Theorems in `PropertiesStat.v`. Two-pass algorithm, in doubles. The deviation is compared squared.
* **C157 Parts of a recording add up** (proved) — the number field of a call is the number of the chosen samples in the cell (C34); filters by disjoint predicates add up. Theorems in `PropertiesParts.v`. Counts in doubles, velocities in ideal arithmetic. For calls that return (on Cartesian grids they do: C34, C35).
* **C158 The order of the samples does not matter** (proved) — sums and counts of permuted lists; the double version through the error bound of C133. Theorems in `PropertiesParts.v`. The bits of a mean do depend on the order: c158_bits_refuted (1, 1, 2^53).
* **C159 Units and origins do not matter** (proved) — the normalised coordinate (p - lo) / (hi - lo) is unchanged, the order is kept, every velocity mode is homogeneous. Theorems in `PropertiesScale.v`. Ideal arithmetic; doubles: C160.
* **C160 Exact changes of unit and origin keep every bit** (proved) — differences of doubles are multiples of the smallest double, so rounding them commutes with powers of two; the quotient of the two differences is the same real number. Theorems in `PropertiesUnits.v`. The factor of ten is refuted by c160_decimal_refuted (5/11 of a grid with 12 cells).
* **C161 The fields agree with each other** (proved) — the four cell-by-cell characterisations of C34, C35, C36, C39 and C41 combined; Cauchy-Schwarz for the lower bound, variance >= 0 for the upper; the samples inside are partitioned by the cells. Theorems in `PropertiesAgree.v`. Doubles for the first two, ideal arithmetic for the last two.
* **C162 Mean velocities and granular temperatures in other orders, units and frames** (proved) — the characterisations of C36 and C39 as means and variances of the samples in a cell; affine changes and permutations of lists; decomposition of a variance into within and between groups. Theorems in `PropertiesFrames.v`. Ideal arithmetic; for calls that return. Cells without samples are excluded (0/0).
* **C163 Units and origins do not matter to the other analyses** (proved) — the characterisations of C37, C38, C40, C41, C43, C44, C45 and C47 and the equivariance of cells, selections and samples of C159. Theorems in `PropertiesScale2.v`. Ideal arithmetic; for calls that return (histogram and mean speed: they return). The histogram for summaries whose limits are restated. Units of time are refuted for displacements because the delayed timestep is searched with the absolute tolerance 0.01 (c163_time_units_refuted, for all builds, grids and cells that contain the start).
* **C164 One CSV file per timestep without velocities** (proved) — PropertiesDefault.v: the four columns are read as seven with NaN (same table, hence the same result), and C70 applies; sums with a NaN are NaN. Theorems in `PropertiesDefault.v`. 
* **C165 Units and origins do not matter on cylindrical grids** (proved) — equivariance of construction, conversion and lookup under the change, then the cell characterisations of C34, C35 and C36. Theorems in `PropertiesCylUnits.v`. Ideal arithmetic with the exact angle of a point. The vector field with the origin across the axis kept, because the conversion of velocities uses positions relative to the origin of the coordinates (C77).
* **C166 Turning the vessel does not change rings and layers** (proved) — a turn keeps the distance from the axis; the angular cells of a ring and layer share out its samples (induction over the samples). Theorems in `PropertiesCylUnits.v`. Ideal arithmetic with the exact angle of a point. The vector field with the axis through the origin, because the conversion of velocities uses positions relative to the origin of the coordinates (C77).
* **C167 A turn by one sector carries particles on by one angular cell** (partial) — the lookup rule of C21 at both angles; the angle reached is the sum (angle addition). Theorems in `PropertiesCylUnits.v`. False: on every cylindrical grid with at least two angular cells, all positions in the lower half of the first sector's angles stay in the same cell (c167_sector_refuted), because angles are compared with the upper edges only and the circle is not closed. Proved for positions beyond the first sector's angles that end before the half turn (c167_sector_partial).
* **C168 Renumbering the particles does not matter to analyses that follow them** (proved) — per-particle event lists are carried along the renumbering (Forall2 over the timesteps), outputs are permuted; per-timestep lists of samples, stays and moves are permutations. Theorems in `PropertiesRenumber.v`. Circulation and trajectories for any arithmetic, doubles included; the others in ideal arithmetic, where sums do not depend on the order. Fields of single samples through C158 (c168_samples gives its hypothesis). An order that changes from timestep to timestep does matter (C47, c47_mixed_refuted).
* **C169 From the original files to trajectories, circulation times, mean speed and mean velocities** (proved) — converter theorems (C53, C56, C70) give the groups, C118 the recording at any point of a session, C46/C133 the analyses; the row of a label by uniqueness of the sorted permutation. Theorems in `PropertiesTracks.v`. T, P, V are the times, positions and velocities written (C53 says which lines these are). Rounding bounds as in C133; velocities up to 2^500 (mean speed) resp. 2^960. The last timestep of the file cannot be reached by extract (C46).
* **C170 Mean speed and mean velocities of a folder of files** (proved) — converter theorems (C56, C70) give the groups, C118 the recording at any point of a session; sorting by label permutes the entries, and the bounds of C133 do not depend on their order. Theorems in `PropertiesAll.v`. Rounding bounds as in C133 (mean_close); velocities up to 2^500 (mean speed) resp. 2^960 (cells), fewer than 2^52 entries.
* **C171 What is analysed of a CSV file with several particles** (proved) — the header's particle number is one (C59/C68), so the reader's recording (C118) is the first group; panics by the first slice read beyond its rows (for files that open, by an invariant of the buffer over all histories: it never reaches past the first group); analyses by C46/C133 and the lemmas of C170. Theorems in `PropertiesFirst.v`. The file is described by holds_all (C59, C68: what the converter writes; c171_chain gives it for any successful chain conversion). Rounding bounds as in C133. Companion of C69 (refuted: nothing is lost).

## 3. Trusted base

* Coq 8.16.1's kernel (including `vm_compute`, used for bit-exact counterexamples and examples;
  `coqchk` accepts the compiled files).
* The axioms in section 7, all from the standard library.  No axiom, parameter, admitted proof,
  functor or module type is declared here.
* Flocq's definition of binary64 (`binary_float 53 1024`, `mode_NE`), as a faithful description
  of Rust's `f64`.  NaN payloads and signs are not distinguished (Flocq's `BinarySingleNaN`).
* The transcription of the Rust and Python text into Gallina, by reading.  The comments give the
  lines; `seeded/LOG.jsonl` records which theorems notice realistic edits of the transcription.
* Parameters of theorems that stand for external code: `atan2`, `sin`, `cos`, `hypot` in doubles
  (arbitrary functions; at `R` they are the true functions), `polyfit`, `powf` (arbitrary, with
  stated properties where needed), contents of HDF5 / CSV / VTK files (arbitrary data).

## 4. What is modelled

| code | model | remarks |
|---|---|---|
| src/grid.rs, src/grid/cartesian_grid.rs, cylindrical_grid.rs, vector_grid.rs | GridModel | all public operations |
| src/particleselector.rs | SelModel | all |
| src/datamanager.rs, pdata.rs, tdata.rs, utilities.rs | DataModel | readers, buffers, auxiliary buffers, statistics, rotation, closest timestep |
| src/functions.rs | FunModel | every field, histogram, mean, homogeneity, dispersion, granular temperature, msd |
| src/functions/mixing.rs | MixModel | Lacey index, concentration field |
| src/functions/conditional.rs, extractions.rs | CondModel | circulation times (one and two boundaries), extract |
| src/converter.rs, convertertools.rs, velocity_paralell.rs, csv_modes/*, xmltools.rs (field lookup) | ConvModel, ConvVtk, ConvIds, ConvMulti, ConvIdChain, ConvFitted | files are parsed tables; conversion, sorting, interpolation, velocities, headers |
| src/pylib.rs, utilities.rs, utilities/maths.rs, src/comparison.rs (threshold) | PyModel, PyStat | indexing, slices, dispatch, statistics |
| src/pylib.rs, class Data as a whole | SessionModel | every method as a step on (data manager, selector); state left by failing auxiliary reads |
| src/plotting/*, src/pylib/libplot.rs, up4/plotting.py | PlotModel | data handed to plotly, arrow geometry, argument checks |
| src/comparison.rs | CompModel | compare, align, make_grid (binary_threshold in PyModel); the `println!` output is a list, Cartesian grids for C122/C123 |
| up4/grid.py, src/pylib/libgrid.rs | PyGridModel | the Grid class |
| src/pylib/libgrid.rs (arrays, slices and summaries of RustGrid and RustVectorGrid) | VGridModel | ndarray's std(1.) is modelled from memory of ndarray 0.15 (Welford's recurrence with a fused multiply-add, Flocq's Bfma); the text around the numbers is not modelled |
| src/converter/convertertools/velocity_paralell.rs (the thread pool) | ParModel | work is a set of index ranges; a step splits one, runs the next item of one or, after a panic, drops one |
| src/pylib/libconv.rs, xmltools.rs, legacytools.rs, folder conversion | LibConvModel | argument defaults, dispatch, vtkio data model; import, regex, natural sort and csv text reader are parameters |
| the HDF5 calls of the converters, and opening by name (pdata.rs, tdata.rs `global_stats`, `new`; pylib.rs `Data`) | H5Model | files are named attributes, groups and datasets; a program can be interrupted between any two calls; calls are atomic and take effect in program order |

## 5. What is not modelled

* HDF5, CSV, VTK and XML byte formats, file system errors, encodings: contents are parsed values
  (H5Model goes down to named HDF5 objects, not to bytes; an interruption inside an HDF5 call and
  write reordering by the operating system are outside it).
* Progress bars, printing, logging, signal checks (`check_signals`), `println!`.
* Layout options of plotly (titles, fonts, colour bars); only the plotted numbers are.
* Memory: allocation failure and arrays above `usize::MAX` bytes.
* Inside the items of the parallel velocity computation (ParModel has the splitting, the interleavings and
  the panics): the call of `PyErr_CheckSignals` from worker threads that do not hold the interpreter lock, and the printing.
* Dead code: src/functions/fields.rs, grid1d.rs, grid2d.rs, commented-out blocks, legacytools.rs
  helpers without callers.
* Python type checks (`isinstance`), which only raise.

## 6. Findings

Behaviours of the code that contradict what a user would expect, each a theorem `*_refuted`
(or `*_panics`); see the notes of the `partial` claims in MANIFEST.json for all of them.  The main ones:

* Cartesian lookup scales by n-1 but centres assume n equal cells (C73); slicing at the upper limit panics (C74).
* Results of fields on a reused grid keep the old weights (C75).
* Auxiliary reads of particle-ordered files beyond 20000 timesteps return other timesteps (C79); reading past the end returns stale data (C65).
* The last timestep is ignored by several functions (C81); the fastest sample falls out of the histogram (C82).
* Granular temperature of constant samples can be NaN by rounding; "mean squared displacement" is (sum d)^2/n (C83).
* Crossing detection misses landings on the boundary and mixes particles (C84).
* Interpolation extrapolates and doubles the last gap; velocities are taken one sample late (C85).
* CSV headers: a coordinate that only falls has maximum f64::MIN (C66), and a grid made from such data contains nothing (C106); the sample rate is 0.
* Plots along the second axis use the positions of another axis (C95); unit vector sizes are validated against the wrong argument (C96).
* Converter.csv and csv_multi never convert anything with their default arguments (C115); vtk_from_folder refuses folders of .vtu or .vtp files (C113).
* Python Grid: negative limits are refused, a cell size above the range gives a grid without cells (C104); remove_outliers' documented modes are off by one (C105).
- comparison.rs: align only prints (grids and flag unchanged); panics if a data set has at most 10000 positions; the unit correction is applied in the wrong direction (C121, C122, C124).
- Converting onto an existing file destroys it with the first call, before the input is looked at (C129).

## 7. `Print Assumptions`, per theorem

F = `ClassicalDedekindReals.sig_forall_dec`, N = `ClassicalDedekindReals.sig_not_dec`, C = `Classical_Prop.classic`, E = `FunctionalExtensionality.functional_extensionality_dep`. These are the axioms of Coq's own real numbers (and what Flocq's proofs use from the standard library); there are no others.

* **closed under the global context**: `c101_as_asked`, `c101_limits`, `c101_ranges`, `c101_refused`, `c101_panics`, `c110_vtk`, `c110_nothing`, `c111_missing_field`, `c111_wrong_kind`, `c112_folder`, `c113_only_vtk_refuted`, `c114_csv`, `c114_csv_multi`, `c114_csv_multi_files`, `c114_unreadable`, `c115_csv_refuted`, `c115_csv_default_refuted`, `c115_csv_multi_default_refuted`, `c115_csv_multi_quotes_refuted`, `c121_not_aligned_refuted`, `c123_kind`, `c125_attributes`, `c125_set_time`, `c125_circulation`, `c125_circulation_two`, `c125_item`, `c125_items`, `c125_slice`, `c125_occupancy`, `c126_csv`, `c126_csv_multi`, `c126_vtk`, `c126_csv_steps`, `c127_csv_opens`, `c127_csv_multi_opens`, `c127_vtk_opens`, `c127_csv_steps_opens`, `c127_csv`, `c127_csv_multi`, `c127_vtk`, `c127_vtk_misfit`, `c127_csv_steps`, `c127_open_p`, `c127_open_t`, `numbered_inj`, `c127_names`, `c128_csv`, `c128_csv_multi`, `c128_vtk`, `c128_csv_steps`, `c129_csv_refuted`, `c129_vtk_refuted`, `c129_unreadable_refuted`, `c129_misfit_refuted`, `c13_set_refuses_other_shapes`, `c134_slice`, `c136_empty`, `c137_pairs`, `c137_deltas`, `c137_whole`, `c139_any_schedule`, `c139_progress`, `c139_terminates`, `c139_no_endless_run`, `c139_velocities`, `c151_one`, `c151_multi`, `c151_steps`, `c151_refused`, `parts_id_ranges`, `parts_id_lists`, `c168_circulation`, `c168_two_boundaries`, `c168_extract`, `c168_samples`, `c18_slice_idx`, `c26_ids`, `c26_single`, `number_cells`, `number_total`, `c37_shares`, `c37_short_refuted`, `c41_mean_velocity_is_header`, `c46_rows`, `c46_refused`, `c46_missing_particle`, `c47_times`, `c47_returns`, `c47_refused`, `c47_each`, `c47_one_particle`, `c48_intervals`, `c48_trips`, `c48_ordered`, `c48_disjoint`, `c48_returns`, `c48_refused`, `c49_sortlist`, `c49_scalars`, `c49_vectors`, `c49_together`, `c51_rows`, `c51_unsorted`, `c51_empty`, `c52_rows`, `c52_total`, `c52_even`, `c52_short`, `c52_one`, `c56_converted`, `c56_refused`, `c58_groups`, `c60_len`, `c60_int`, `c60_list`, `c60_slice`, `c64_meshgrid`, `c64_meshgrid3d`, `c64_flatten_2d`, `c64_flatten_3d`, `c71_remainder_refuted`, `c71_reversed_refuted`, `c71_empty_refuted`, `c78_mean_speed_ignores`, `c46_last_timestep_refuted`, `c83_empty_layers`, `c83_absent_type`, `c86_quiver_plane`, `c86_quiver_depth`, `c86_grid`, `c86_vector`, `c87_table`, `c88_map_plane`, `c88_map_depth`, `c88_contour_plane`, `c88_contour_depth`, `c89_map_plane`, `c89_map_depth`, `c89_plot_plane`, `c89_plot_depth`, `c89_plot_vector`, `c89_plot_vector_depth`, `c94_accepted`, `c94_refused`, `c94_wrong_kind`, `c94_negative`, `c94_no_such_plane`, `c94_no_plot`, `c94_parity`, `c94_parity_refused`, `c94_wraps_refuted`, `c95_depth_panics_refuted`, `c95_depth_misplaced_refuted`, `c95_parity_misplaced_refuted`, `c96_max_refuted`, `c96_minmax_refuted`, `c97_single_cell_refuted`
* **C, E, F, N**: `c01_lookup_in_bounds`, `c01_nan_is_outside`, `c02_outside_inert`, `c03_add_touches_one_cell`, `c03_insert_touches_one_cell`, `c04_history`, `c05_monotone`, `c09_new_grid`, `c09_other_dimensions_refused`, `c100_csv`, `c100_vtk`, `c100_step_files`, `c102_cylinder`, `c104_negative_refuted`, `c104_size_refuted`, `c104_count_refuted`, `c104_no_cells_refuted`, `c104_rounding_refuted`, `c16_modes_0_1`, `c105_modes_refuted`, `c100_falling_refuted`, `c102_corner_refuted`, `c107_id_line`, `c107_chain`, `c108_id_line`, `c108_chain`, `c109_lines`, `c109_resampled`, `c11_new_zeros`, `c164_python`, `c116_p_no_trace`, `c116_p_calls`, `c116_t_no_trace`, `c116_t_calls`, `c117_same_answers`, `c118_p_recorded`, `c118_t_recorded`, `c119_vtk`, `c119_vtk_all`, `c119_csv`, `c119_csv_all`, `c119_step_files`, `c119_step_files_all`, `c12_unvisited_is_nan`, `c120_opens_partial`, `c120_short_refuted`, `c120_none_refuted`, `c122_aligns`, `c122_sparse_refuted`, `lattice_aligns`, `c123_prints`, `c123_grids`, `c125_p_session`, `c125_t_session`, `c125_number`, `c125_velocity`, `c125_vector`, `c125_histogram`, `c125_histogram_other`, `c125_concentration`, `c125_extract`, `c13_shape_invariant`, `c13_new_grids_have_the_shape`, `c130_cell`, `c130_exact`, `c130_inside`, `c131_centres`, `c131_increasing`, `c131_found`, `c132_slice`, `c133_grid`, `c133_velocity_field`, `c133_vector_field`, `c133_speed`, `c133_mean_speed`, `c134_slice_pos`, `c134_vectorfield`, `c135_summary`, `c136_mean_refuted`, `c136_components_refuted`, `c136_one_cell`, `c136_extremes`, `c137_whole_diagonal`, `c138_point`, `c138_short`, `c14_collapse_f64`, `c14_unvisited_is_nan`, `c14_axis_refused`, `c140_radius`, `c140_rings`, `c140_rings_increase`, `c140_distance`, `c140_rim`, `c140_lookup`, `c140_found`, `c141_any_grid`, `c141_granular_temperature`, `c142_dispersion`, `c142_mean`, `c143_edges`, `c143_bin`, `c143_none`, `c143_histogram`, `c144_lacey`, `c145_field`, `c145_msd`, `c146_accuracy`, `c147_velocity`, `c148_velocity`, `c149_returns`, `c149_returns_iff`, `c149_number`, `c149_velocity`, `c149_vector`, `c15_collapse_two_f64`, `c15_axis_order`, `c15_equal_axes_refused`, `c150_before`, `c150_beyond`, `c150_far`, `c150_panics_only`, `c70_empty_file`, `c152_p`, `c152_t`, `c152_stale_refuted`, `c152_refused_refuted`, `c152_overwritten_refuted`, `c153_collapse`, `c153_collapse_two`, `c153_vector`, `c153_velocity`, `c153_velocity_two`, `c154_shares`, `c154_total`, `c155_weights`, `c155_index`, `c156_mean`, `c156_std`, `c156_equal`, `c156_printed`, `c157_counts`, `c157_windows`, `c157_joined`, `c158_counts`, `c158_velocity_doubles`, `c158_bits_refuted`, `c16_other_modes_refused`, `c16_negative_threshold_refuted`, `c160_same_cell`, `c160_number`, `c160_velocity`, `c160_decimal_refuted`, `c161_number_is_weight`, `c161_components`, `c164_same`, `c164_stored`, `c164_read_back`, `c164_mean_velocity`, `c165_grid`, `c165_inside`, `c165_cell`, `c165_number`, `c165_velocity`, `c165_vector`, `c166_inside`, `c166_ring_layer`, `c166_number`, `c166_velocity`, `c166_vector`, `c167_sector_partial`, `c167_sector_refuted`, `c169_csv_recorded`, `c169_csv_trajectory`, `c169_csv_circulation`, `c169_csv_circulation_two`, `c169_csv_mean_speed`, `c169_csv_vectors`, `c169_vtk_recorded`, `c169_vtk_trajectory`, `c169_step_trajectory`, `c17_mode2_release`, `c17_mode2_debug`, `c170_vtk_mean_speed`, `c170_vtk_vectors`, `c170_step_recorded`, `c170_step_mean_speed`, `c170_step_vectors`, `c171_not_opened`, `c171_shorter_opened`, `c171_shorter_reads`, `c171_shorter_no_speed`, `c171_shorter_no_vectors`, `c171_shorter_no_lines`, `c171_recorded`, `c171_trajectory`, `c171_mean_speed`, `c171_vectors`, `c171_chain`, `c21_lookup`, `c22_components`, `c24_radius`, `c24_empty_panics`, `c25_cloud`, `c25_density`, `c27_conjunction`, `c27_default_accepts_all`, `c27_default_accepts_every_finite_time`, `c27_default_time`, `c27_window`, `c27_set_time_frame`, `c28_reads`, `c28_after_any_history`, `c29_reads`, `c29_after_any_history`, `c30_p_one_window`, `c30_t_sound`, `c30_t_forward`, `c31_t`, `c31_p_single`, `c32_search`, `c33_angle_set`, `c34_number_of_samples`, `c34_nothing_lost`, `c34_cylindrical`, `c34_on_a_file`, `c35_unknown_mode`, `c35_mean`, `c36_vector_mean`, `c37_returns`, `c37_nothing_observed`, `c37_pfile`, `c37_tfile`, `c38_counts`, `c38_total`, `c38_other_property_refused`, `c39_unknown_mode`, `c39_returns`, `c40_returns`, `c41_mean_speed`, `c42_from_occupancy`, `c42_returns`, `c43_returns`, `c44_share`, `c45_returns`, `c47_crossing_sound`, `c47_nonnegative`, `c50_sorted`, `c50_rows`, `c50_identity`, `c50_nan`, `c53_written`, `c53_refused`, `c53_columns`, `c53_velocity`, `c53_resampled`, `c54_header`, `c54_time`, `c55_file`, `c55_read_back`, `c56_read_back`, `c57_header`, `c58_max_time`, `id_exact`, `c59_chain`, `c60_pfile`, `c60_tfile`, `c60_opened`, `c61_open`, `c61_refused`, `c62_marks`, `c62_accepts`, `c62_monotone`, `c62_rank_bound`, `c62_quantile_one`, `c63_mean`, `c63_std`, `c63_ignores`, `c63_all_nan`, `c63_std_sign`, `c64_minmax`, `c64_empty`, `c65_p_refuted`, `c65_t_refuted`, `c65_opened_refuted`, `c65_release_refuted`, `c65_partial`, `c54_rate_refuted`, `c57_nparticles_refuted`, `c68_id_line`, `c69_single_refuted`, `c69_short_refuted`, `c69_one_shown_refuted`, `c69_origin_refuted`, `c58_singletons_refuted`, `c70_converted`, `c70_refused`, `c70_read_back`, `c71_past_end_refuted`, `c72_quantile_refuted`, `c72_mean_refuted`, `c72_minmax_infinite_refuted`, `c72_minmax_exact`, `c06_centre_refuted`, `c02_cylindrical_refuted`, `c08_slice_refuted`, `c08_upper_limit_refuted`, `c20_rounding_refuted`, `c74_upper_limit_panics`, `c11_fresh_refuted`, `c35_reused_grid_refuted`, `c39_reused_grid_refuted`, `c40_reused_grid_refuted`, `c13_broadcast_refuted`, `c22_outlier_refuted`, `c17_border_refuted`, `c76_weights_part`, `c76_divide_exact`, `c35_cylindrical_modes_refuted`, `c25_cloud_refuted`, `c25_density_refuted`, `c26_zero_refuted`, `c41_selector_refuted`, `c78_cloud_exact`, `c78_density_exact`, `c30_p_refuted`, `c30_name_refuted`, `c30_t_backward_refuted`, `c31_p_refuted`, `c79_unbuffered_panics`, `c79_density_refuted`, `c32_nearest_refuted`, `c32_early_exit_refuted`, `c80_gap_refuted`, `c44_last_timestep_refuted`, `c38_below_refuted`, `c38_nan_refuted`, `c38_maximum_refuted`, `c82_nan_first`, `c82_below_first`, `c39_nan_refuted`, `c42_empty_layer_refuted`, `c43_at_most_one_refuted`, `c43_absent_type_refuted`, `c45_mean_of_squares_refuted`, `c47_landing_refuted`, `c47_mixed_refuted`, `c48_fall_refuted`, `c48_rise_refuted`, `c84_landing_missed`, `c51_extrapolates_refuted`, `c51_at_sample_refuted`, `c51_blank_refuted`, `c88_contour_range`, `c89_self`, `c89_diagonal`, `c90_plain`, `c91_max`, `c91_min`, `c91_min_max`, `c91_fitted`, `c93_unit`, `c97_zero_arrow_refuted`, `c97_uniform_refuted`, `c98_vector_diagonal_refuted`, `c98_first_component`, `c99_from_data`, `c99_every_sample_counted`
* **E, F**: `c147_exact`, `c21_before_or_at`, `c39_zero_iff_uniform`, `c40_zero_iff_coincide`, `c43_upper_bound`, `c45_bound`
* **E, F, N**: `c06_centre`, `c07_cells`, `c07_last_is_a_point`, `c08_slice`, `c09_centres`, `c09_published_positions`, `c10_trajectory_totals`, `c10_trajectory_cells`, `c103_cell_size`, `c104_holds_nothing`, `c12_mean`, `c124_boxes`, `c124_moved`, `c124_units_refuted`, `c124_units_small_refuted`, `c125_temperature`, `c125_lacey`, `c125_dispersion`, `c125_msd_field`, `c125_msd`, `c125_homogenity`, `c134_slice_pos_ideal`, `c134_depth_average`, `c136_first_component`, `c14_collapse`, `c146_chord`, `c146_at_sample`, `c146_tail_blank`, `c146_falls_behind`, `c15_collapse_two`, `c157_velocity`, `c158_velocity`, `c159_number`, `c159_velocity`, `c159_centres`, `c161_speed_between`, `c161_one_number`, `c162_order_vector`, `c162_order_temperature`, `c162_units_vector`, `c162_units_temperature`, `c162_moving_frame`, `c162_temperature_frame`, `c162_rest`, `c162_mixture`, `c163_concentration`, `c163_lacey`, `c163_mean_speed`, `c163_occupancy`, `c163_circulation`, `c163_histogram`, `c163_msd`, `c163_dispersion`, `c163_time_units_refuted`, `c168_msd`, `c168_dispersion`, `c168_occupancy`, `c168_lacey`, `c19_rings`, `c20_cell_found`, `c20_inside_and_add`, `c23_cartesian`, `c23_cylindrical`, `c33_velocity_speed`, `c33_position_distance`, `c33_anchor_fixed`, `c33_distance_to_anchor`, `c33_zero_angles`, `c33_quarter_turn`, `c34_cylindrical_ideal`, `c35_modes`, `c35_mean_ideal`, `c36_vector_mean_ideal`, `c37_fraction`, `c37_sums_to_one`, `c37_any_manager`, `c38_edges`, `c38_enclosed`, `c39_standard_deviation`, `c40_sample_variance`, `c41_mean_ideal`, `c42_standard_deviation`, `c43_index`, `c44_complement`, `c45_field`, `c45_msd`, `c47_crossing_exact`, `c51_affine`, `c52_slope_derivative`, `c52_velocity`, `c52_linear`, `c63_mean_ideal`, `c63_std_ideal`, `c07_equal_widths_refuted`, `c21_height_refuted`, `c02_cylindrical_height_refuted`, `c74_beyond_panics`, `c74_any_height_added`, `c75_velocity_used`, `c75_velocity_right_iff`, `c75_temperature_used`, `c23_off_centre_refuted`, `c77_radial_iff`, `c82_counted_below_max`, `c83_msd_iff`, `c84_jumps_missed`, `c84_rise_reported`, `c51_spacing_refuted`, `c52_middle_refuted`, `c92_scale`, `c93_same_size`

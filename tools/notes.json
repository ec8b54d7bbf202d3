{
 "C01": [
  "proved",
  "api_array = everything reachable through constructor and public mutators; read/write law and views included"
 ],
 "C02": [
  "proved",
  "both the generic index loop and the array element loop"
 ],
 "C03": [
  "proved",
  "holds for positive chunk sizes as stated; the _refuted theorems record behaviour outside the stated quantifier (zero or infinite chunk size, empty_range)"
 ],
 "C04": [
  "proved",
  "single appends, arbitrary sequences, mismatching slices"
 ],
 "C05": [
  "proved",
  ""
 ],
 "C06": [
  "proved",
  "region copy (also from views), constant fill and column copy"
 ],
 "C07": [
  "partial",
  "proved for arrays; false of the code for views (counterexample theorem C07_copy_of_view_refuted)"
 ],
 "C08": [
  "proved",
  "u32/u64/f32/f64 as bit patterns; byte order stated explicitly"
 ],
 "C09": [
  "proved",
  "all nestings generated by the 'prescription' inductive; block-wise float path independent of the block size"
 ],
 "C10": [
  "proved",
  "within the quantifier (null runs below 2^32); C10_run_counter_overflow_refuted shows the bound is needed"
 ],
 "C11": [
  "proved",
  "bound sufficient and tight"
 ],
 "C47": [
  "proved",
  "nat and 64-bit versions; overflow counterexample outside the quantifier"
 ],
 "C12": [
  "partial",
  "round trip proved for all shapes, chunk shapes and modes; ill-formed chunks rejected before writing; false part: the automatic mode throws only after the header was written (C12_automatic_mode_rejected_early_refuted)"
 ],
 "C13": [
  "partial",
  "proved for any axis, number of appends and mix of modes when all pieces but the last are whole numbers of serialisation chunks; false of the code for smaller pieces although the writer accepts them (C13_small_pieces_refuted)"
 ],
 "C14": [
  "proved",
  "Refinement in both directions against a map with last-use timestamps, for all call histories and capacities >= 1 (capacity 0 makes the constructor undefined: modelled as failure)."
 ],
 "C15": [
  "proved",
  "Both traversal orders after any history of calls."
 ],
 "C16": [
  "proved",
  "All histories of a pool constructed with a positive initial size. A pool constructed with size 0 can never hand out a slot (C16_empty_pool_refuted); size 0 is outside the quantifier of the property."
 ],
 "C17": [
  "partial",
  "contains, extend, the cleared box and the overlap volume for all proper 64-bit boxes; overlaps iff a common index exists for non-empty boxes only: for empty boxes it is false of the code (C17_empty_box_overlap_refuted)."
 ],
 "C18": [
  "proved",
  "For every history of insertions, box updates, clears, bulk rebuilds and lookups (lookups/updates/rebuilds only on a non-empty index: the code has undefined behaviour otherwise); std::sort and std::partial_sort are arbitrary permutations (lib_ok), the slab count arbitrary positive."
 ],
 "C19": [
  "proved",
  "Same histories as C18; multiset equality with the items overlapping the query box."
 ],
 "C20": [
  "proved",
  "Enumeration for every history; insertion order and exact hull for insertions and lookups. After box updates the reported box covers everything and lies within every box covering all boxes handed over since the last clear or rebuild (it need not shrink)."
 ],
 "C21": [
  "proved",
  "2..10 children, equal leaf depth, covering boxes for every rebuild-free history; with bulk rebuilds the lower bound is 1."
 ],
 "C22": [
  "proved",
  "If several entries contain the coordinate, one of them is replaced."
 ],
 "C23": [
  "proved",
  "Non-empty index; an empty one fails an assertion in RebuildSTR."
 ],
 "C51": [
  "partial",
  "Tree: proved when at most one stored payload lies at the coordinate, for point, range, enumeration and bounding-box queries; refuted for overlapping boxes (the last-accessed shortcut is visible). Chunked array (disjoint chunks, any history of lookups of all kinds): elements, ranges, loops and the box are the same, except that the signs of zeros in a vector of zeros may differ; refuted without this exception (C51_signed_zero_refuted)."
 ],
 "C36": [
  "partial",
  "Proved for every array, region start and downsampling factor (size_t arithmetic modelled): a chunk keeps exactly every d-th sample of the global grid, and downsampling the chunks of any tiling equals downsampling the whole. Refuted for an empty region starting at the origin (the index arithmetic wraps)."
 ],
 "C37": [
  "proved",
  "For every requested padding and downsampling factor."
 ],
 "C40": [
  "partial",
  "Proved for every number of samples and every split into non-empty blocks, over real numbers (rounding not modelled). Refuted for degenerate ranges (zero samples / empty first block write outside the buffer)."
 ],
 "C41": [
  "proved",
  "Over real numbers (rounding not modelled)."
 ],
 "C42": [
  "partial",
  "Over real numbers, for three-dimensional arrays (the code's static_assert admits no others) and coordinates whose stencil fits in the array. Refuted at the lower boundary with the cubic kernel: zero is returned silently."
 ],
 "C32": [
  "proved",
  "For every chunk metadata record of any dimensionality whose fields fit their C++ types, and every index file."
 ],
 "C46": [
  "proved",
  "Signed/unsigned wrap-around arithmetic modelled exactly for indices; coordinates over the real numbers."
 ],
 "C48": [
  "partial",
  "Proved for all inputs that are numbers; refuted for NaN (accepted) and for a failed SetRegion (the storage region is left modified)."
 ],
 "C49": [
  "partial",
  "Exact exactly when the operands are representable in the result type; refuted for min of unsigned with a negative signed value."
 ],
 "C50": [
  "proved",
  "Every array of at most 900 axes (longer headers overflow the format v1 length field)."
 ],
 "C38": [
  "proved",
  "For every set of simulation chunks and every history of saved slices; scalars are reals (rounding not modelled), the MEEP grid iteration is abstracted to the list of visited points."
 ],
 "C39": [
  "proved",
  "Single-precision arithmetic modelled exactly with Flocq; the result of std::pow is a parameter (at least 1)."
 ],
 "C45": [
  "partial",
  "Proved for all elements except those at negative radius whose mirrored element lies beyond an outer boundary; for these corners the rule is refuted (they receive stale buffer contents)."
 ],
 "C43": [
  "proved",
  "Over real numbers. For every segment, sample count and positive block sizes, the computed signal is the old signal plus the direct trapezoidal sum over the quadrature points whose time is not after the sample, if every needed point lies in a specified chunk whose interpolation yields the field (C43_signal_is_direct_sum); for libraries of chunks holding common samples this is shown to be the kernel-weighted sum over these samples (C43_signal_from_stored_samples; the chunk overlap is at least the kernel support, and if it is equal no sample is exactly at a chunk's end). That exception is needed (C43_overlap_equal_to_support_refuted): there the code reads beyond the stored array, although the assert accepts the overlap; SignalCalculator uses Keys (support 2) and the calculators write overlap 2."
 ],
 "C44": [
  "partial",
  "Proved if only null chunks (or, with Ignore, the outside) follow after the first null chunk in time. Refuted in general: a null chunk before a specified one shifts all later samples of the call to earlier output positions, because the output iterator is only advanced for specified chunks (GreensFunction.hxx:405-433)."
 ],
 "C24": [
  "partial",
  "all histories of register/replace/append (first axis)/remove/retrieve/flush, every cache size incl. 0, any leftover files; false of the code for a change of append axis, for other axes while cached, and for the default constructors (_refuted theorems); appends need the stored part to consist of complete serialisation chunks (see C13)"
 ],
 "C25": [
  "partial",
  "every permitted history, any cache size before and after reopening, any continuation; same restrictions as C24"
 ],
 "C28": [
  "partial",
  "all-null detection exact; chunks without overlap read the same as ordinary ones at any later time; false with overlap (C28_overlap_refuted)"
 ],
 "C26": [
  "partial",
  "all histories of register/append/import/get/fill/loop/flush/move/clear/close+reopen in which nothing is registered or imported into an array that was opened with chunks in it; in that case the claim is false of the code (C26_reopen_refuted: id 0 handed out again, reads return the other chunk); fewer than 2^32 registrations"
 ],
 "C27": [
  "partial",
  "element access and range read for every permitted history, any layout of disjoint chunks with or without overlap, any cache size; vectors of zeros may come back as +0 (C10); false for element access to all-null chunks with overlap not in the cache (C27_null_overlap_refuted); range reads handle these correctly and are proved"
 ],
 "C29": [
  "partial",
  "first axis, no overlap, aligned stored part (see C13), any layout and cache state; false otherwise: no chunk -> null pointer, start inside the chunk accepted, other axes (C29_*_refuted)"
 ],
 "C30": [
  "partial",
  "all histories, layouts, dimensions with fewer than 2^64 indices in the hull; false beyond that (C30_overflow_refuted)"
 ],
 "C31": [
  "partial",
  "all pairs of histories with disjoint boxes and file names (uuids), copy and move; the importing array must not have been opened with chunks in it (see C26_reopen_refuted)"
 ],
 "C52": [
  "proved",
  "any history, any layout; all-null chunks must have no overlap (see C27_null_overlap_refuted)"
 ],
 "C53": [
  "proved",
  "any history; also the move into an empty directory and clearing"
 ],
 "C33": [
  "partial",
  "any history of a gap-free array that starts at the origin, any chunk size, overlap and boundary evaluator, of both variants (the one that gets the chunk: C33_rebuild; the one that gets the array: C33_whole_rebuild, C33_copied_element); what is missing: for the cylindrical rule nothing is said about indices at negative radius whose mirror image is not in the array, where the rule is false (C45_corner_refuted)"
 ],
 "C34": [
  "partial",
  "false as stated: an array with gaps is empty after the rebuild (C34_gap_refuted), one that starts at a positive index loses elements (C34_offset_refuted); it holds for gap-free arrays that start at the origin"
 ],
 "C35": [
  "partial",
  "false as stated for flush, move and import-by-move: there always is a crash point after which the old state can be read from no directory (C35_flush_refuted, C35_move_refuted, C35_import_move_refuted), and after SwapAxes the flushed state is lost until the next flush (C35_swap_refuted); proved for all crash points while chunks are registered or read, for import of copies and for RebuildChunks; for the others what is not lost is proved (_partial).  Slices appended in place to flushed chunks since the flush: a crash that does not hit a file while it is changed loses nothing (C35_append_between), any crash loses at most one chunk (C35_append_partial), and one can be lost (C35_append_refuted)."
 ],
 "C54": [
  "proved",
  "any history; hypotheses: all-null chunks have no overlap (else see C27_null_overlap_refuted) and the counts written to the files fit"
 ],
 "C55": [
  "proved",
  "any history of the session relation (register, append, import by copy or move, get, fill, loop, flush, clear, move, swap, close, reopen, rebuild); the directory holds nothing but what the array wrote into it"
 ],
 "C56": [
  "partial",
  "any number of jobs, arrays, padding, chunk size, overlap; the re-chunked array is described completely (C56_rechunk: chunks, box, stored values); what is missing is the reading of an element whose vector is null when an overlap is requested: such an element may be in an all-null chunk with overlap, which the library does not read back (C27_null_overlap_refuted)"
 ],
 "C57": [
  "proved",
  "one process, any number of regions and steps; the field buffers (after truncation) and the list of regions are inputs; the loop over floating-point time is represented by its number of iterations; SwapAxes and the final directory for the three axes of the simulation"
 ],
 "C58": [
  "proved",
  "the set of simulation chunks of one process is an input (odd grid coordinates, first point not behind the last, no common cells, as MEEP hands them out); symmetry is the identity and the shift zero, as in this calculator; the decision which elements are truncated is an arbitrary function (its statistics are C38); for empty boxes overlaps, and for boxes without overlap get_chunk_overlap, do not have their intended meaning (shown by the two _refuted theorems); the callers never get there"
 ],
 "C60": [
  "proved",
  "composition of the models behind C37, C39, C54, C56, C57 and C58: all stages of Calculate up to the final array; the shape of the calculated and of the storage domain, the simulation chunks and the field come from MEEP and are inputs; every cell must belong to exactly one simulation chunk; the coordinates written beside the array (803-823) are not part of it (C59); null values in overlapping arrays as in C27; the loop that looks for a partition size is given enough steps (C39)"
 ],
 "C61": [
  "partial",
  "Over real numbers. C61_fill_partial: exactly the samples in a specified chunk returned by the query (far faces included) hold the interpolated field, all others are zero. C61_complete_partial: every sample holds the interpolated field if the chunks cover the range and no chunk begins at the truncated end of the range. The rest is refuted by the code (C61_end_cut_refuted): samples behind a chunk boundary at trunc(end) silently stay zero. A single sample along an axis divides by zero and is excluded; the chunk overlap must exceed the kernel support (C43)."
 ],
 "C59": [
  "partial",
  "Over real numbers, on top of C60. Exact coordinates are refuted by the code for every calculation (C59_first_sample_refuted: the first sample is assigned half a cell too low), and the stored region need not contain the requested one (C59_request_refuted). Proved: bounds on the stored region (C59_region_partial), equality for requests at cell boundaries (C59_aligned_region), which steps are stored (C59_steps), and for the whole calculation that every element is the field at a point at most (d - 1/2) cells from its coordinates along r and z and in (-dt, timestep) in time (C59_green_function_partial). At least two samples along every axis (one divides by zero)."
 ],
 "C62": [
  "proved",
  "Over real numbers, for any function as the field and any requested steps. C62_dipole: terminates, opens, holds the sampled field with chunks and overlaps (sampled_field); C62_element, C62_shape: through the reading interface; C62_grid: the grid begins and ends exactly at the region, d <= step < 2d; C62_negative_radius: what is stored in front of the axis is the field if it is even and the region begins at r = 0. Refuted by the code and recorded as such: offset regions are mirrored wrongly (C62_offset_refuted), steps coarser than required (C62_coarser_refuted), division by zero for small regions (C62_small_region_refuted)."
 ],
 "C63": [
  "proved",
  "Arithmetic over real numbers: the stored 32-bit floats are read as the real numbers they are (Flocq binary32), the computation itself is not rounded. C63_signal: apply_accumulate on a library object after any session (state threaded through index and cache); positions must be in specified chunks, or stay in null chunks / outside (if ignoring) where the interpolated field is zero, and the overlap must be at least the kernel support (if equal, no sample exactly at a chunk's end, as C43 shows). C63_fill, C63_fill_complete: fill_array on such an object. C63_analytic_signal, C63_analytic_fill, C63_analytic_grid: from Analytic::ElectricDipole through the directory to signals and samples, linear kernel. C63_analytic_signal_keys: the same with the cubic kernel that SignalCalculator uses (its support equals the overlap of 2): tracks that stay one step off the first radius, or one step inside in height and delay (elsewhere the kernel uses corners of the overlap that hold stale data, C45), with no delay at a multiple of the time step."
 ],
 "C64": [
  "proved",
  "Real arithmetic; std::lgamma is assumed to be ln (n!) at n+1. Termination is stated as a number of loop rounds that suffices. The series bound shows that the stopping rule gives tol*(n+1)/2, not tol."
 ],
 "C65": [
  "proved",
  "Real arithmetic. The field is specified by derivatives of the Hertz vector (Coquelicot's is_derive). The front itself (t = eta r), where the second derivative of the moment need not exist, is excluded in C65_field. C65_mirror: the stored radial component is even in r, although the physical one is odd (used only for r >= 0 samples and their mirror at the axis). C65_order_zero_refuted: a filter of order 0 passes but the field is identically zero. C65_stored, C65_signal: from the arguments through the directory (C62) to elements and signals (C63); the computation is exact and its result rounded once to a 32-bit float (float_near), tracks keep away from r_min (away), and no overflow is guaranteed by an explicit bound (largest_field)."
 ],
 "C66": [
  "proved",
  "Real arithmetic; the actual steps are those of C62 (an integer number of steps in the region). C66_zero_refuted: order 0 or oversampling 0."
 ],
 "C67": [
  "proved",
  "C67_tracks, C67_contiguous, C67_speed, C67_ice, C67_dimensions; the exceptions are proved as C67_first_scaling_refuted, C67_dimensions_radius_refuted, C67_dimensions_tracks_refuted and C67_undefined."
 ],
 "C68": [
  "proved",
  "The index is explicit: with the default (any negative one) the code indexes with -1 (C68_random_refuted); the extra profile at the end of the file is in C68_construct and C68_extra_refuted. C68_create assumes that the uninitialised energy is one of the file (otherwise it takes part as an additional energy)."
 ],
 "C69": [
  "proved",
  "C69_accumulate, C69_corsika: one track; C69_tracks, C69_order: any list; C69_shower: the example, doubled; C69_analytic, C69_analytic_shower: with the calculation of C62 in front."
 ],
 "C70": [
  "proved",
  "C70_signal: one track, either kernel and any batch sizes; C70_tracks, C70_shower: with the cubic kernel. The hypotheses on tracks (in_green) exclude what C44, C45 and C63 refute: delays at the end of a chunk when the overlap is just the support of the kernel, positions in null chunks, and the cubic kernel within one step of the first radius and at the same time of another boundary."
 ],
 "C71": [
  "proved",
  "with 32-bit and 64-bit floating-point numbers and rounding (Flocq), NaN and infinities included; the expectations that do not hold are C71_late_current_refuted and C71_round_trip_refuted"
 ],
 "C72": [
  "proved",
  "with 32-bit and 64-bit floating-point numbers and rounding (Flocq); complements C59 (over the reals); the expectations that do not hold are C72_cell_lost_refuted, C72_check_refuted, C72_last_slice_refuted and C72_same_timestep_refuted"
 ],
 "C73": [
  "proved",
  "the formats of the C++ standard library are part of the model; the file is read by a separate parser in ExportSpec; the expectations that do not hold are C73_times_refuted and C73_missing_values_refuted; infinities and NaN are modelled but not part of the theorems"
 ],
 "C74": [
  "proved",
  "complements C41 and C42, which are about the same code over the real numbers; every operation is rounded on its own (the project compiles with -ffast-math, which need not do so)"
 ],
 "C75": [
  "partial",
  "proved if the times are multiples of a power of two within 2^24 of them and the track lasts a whole number of units (C75_signal, C75_chunk_samples), and with an error bound for any times (C75_time_error); for any times the calculation either stops at the assertion in line 326 (C75_stops) or the signal has exactly the contributions, with an error bound for the choice of the first sample and for the times (C75_any_times); in general the code refutes it: rounding makes the causality assertion fail (C75_causality_refuted) and the assertion at the end of a chunk (C75_chunk_end_refuted). Complements C43, which is about the same code over the real numbers; every operation is rounded on its own"
 ],
 "C76": [
  "proved",
  "if the calculation returns (C75 is about when it does not); chunks without null values, found for every index that is needed; every operation is rounded on its own. C76_chunk_values is about one chunk, C76_index about the indices, C76_contributions about the loop over the chunks, C76_signal about the whole signal of a track with any times, C76_place, C76_weight, C76_current and C76_radial about the positions, weights, currents and radial components of the points, and C76_track_signal combines C76_signal and C76_place: the contributions are those at the exact points of the track; C76_product is about the rounding of one contribution, and C76_sample says what the samples are: the old value plus the sum of the exact contributions, up to an error that is proportional to the number of points (for signals of floats and of doubles: adds_float, adds_double)"
 ],
 "C77": [
  "partial",
  "over real numbers; true for tables of any size in any order of rows, without two rows with the same argument, at every argument from the smallest one up to, but not including, the largest one (C77_permittivity, C77_unique, C77_rows, C77_between, C77_row_order), and for impulse responses that are in order and start not after 0 (C77_impulse_response); reading: C77_read. Refuted: at the largest argument of every table an exception is thrown (C77_last_row_refuted), rows with equal arguments make the result depend on std::sort (C77_equal_arguments_refuted), a late impulse response throws (C77_late_table_refuted), blank lines and headers are not skipped (C77_blank_line_refuted, C77_header_refuted). In 32-bit floats: no assertion of lin_interp fails (C77_float_defined), for tables of moderate numbers the result is within 16 M / 2^24 (M the largest value) of the function (C77_float) and exact at the rows (C77_float_rows); rows closer than about 2^-128 of each other can give NaN (C77_float_close_rows_refuted). The permittivity is within 40 M^2 / 2^24 of the square (C77_float_permittivity), and the impulse response as lin_interp (C77_float_impulse_response). std::stof is any function; std::pow(x, 2.0) is taken to be the exact square of a float"
 ],
 "C78": [
  "partial",
  "over real numbers, for every order and peaking time of the filter (the example has 4 and 2). True: the bounds (C78_range), growth with depth in each of the two layers (C78_deeper), the filter is the one of the analytic calculator (C78_filter), its peak and its integral (C78_peak, C78_unit), and the constants of the example (C78_example). Refuted: the permittivity does not grow with depth across the boundary of the layers at 14.9 m (C78_layers_refuted). std::lgamma is exact at the positive integers"
 ],
 "C79": [
  "proved",
  "in 32-bit floats, for every start, end, step, velocity and charge: C79_joined (tracks join up without gaps, bit for bit), C79_ends (the loop always ends), C79_whole (exactly one track per step for whole times up to 2^24, positions correctly rounded), C79_example (500 tracks), C79_large_times_throws. The signal of the tracks is the subject of C69, C75 and C76; std::exp of the charge is any function"
 ],
 "C80": [
  "proved",
  "in 32-bit floats, for all finite start, end and step up to 2^60 in size and at most 2^23 steps: C80_times (number of samples, each time within two roundings of t0 + i dt, never going back), C80_increasing (strictly increasing if the step exceeds the rounding of the times), C80_interval (the step is 1 / rate up to two roundings), C80_example (1250 different times, within 0.0002 of 1050 + i / 5)"
 ]
}
{
 "claims": [
  {
   "property": "C01",
   "status": "proved",
   "theorems": [
    "C01_addressing_bijection",
    "C01_read_write",
    "C01_view_reads_parent"
   ],
   "note": "api_array = everything reachable through constructor and public mutators; read/write law and views included"
  },
  {
   "property": "C02",
   "status": "proved",
   "theorems": [
    "C02_element_loop_exactly_once_in_order",
    "C02_element_loop_count",
    "C02_array_element_loop_row_major"
   ],
   "note": "both the generic index loop and the array element loop"
  },
  {
   "property": "C03",
   "status": "proved",
   "theorems": [
    "C03_chunk_loop_tiles",
    "C03_zero_chunk_size_diverges_refuted",
    "C03_no_wraparound",
    "C03_no_wraparound_from_zero",
    "C03_infinite_chunk_size_refuted",
    "C03_empty_range_refuted"
   ],
   "note": "holds for positive chunk sizes as stated; the _refuted theorems record behaviour outside the stated quantifier (zero or infinite chunk size, empty_range)"
  },
  {
   "property": "C04",
   "status": "proved",
   "theorems": [
    "C04_append_is_concatenation",
    "C04_mismatch_rejected",
    "C04_other_axes_throw",
    "C04_append_sequence"
   ],
   "note": "single appends, arbitrary sequences, mismatching slices"
  },
  {
   "property": "C05",
   "status": "proved",
   "theorems": [
    "C05_swap_axes",
    "C05_swap_twice_restores"
   ],
   "note": ""
  },
  {
   "property": "C06",
   "status": "proved",
   "theorems": [
    "C06_fill_from_changes_exactly_block",
    "C06_fill_from_view",
    "C06_fill_value",
    "C06_fill_column"
   ],
   "note": "region copy (also from views), constant fill and column copy"
  },
  {
   "property": "C07",
   "status": "partial",
   "theorems": [
    "C07_copy_of_array_partial",
    "C07_assignment_of_array_partial",
    "C07_copy_of_view_refuted"
   ],
   "note": "proved for arrays; false of the code for views (counterexample theorem C07_copy_of_view_refuted)"
  },
  {
   "property": "C08",
   "status": "proved",
   "theorems": [
    "C08_scalars_round_trip",
    "C08_scalars_big_endian"
   ],
   "note": "u32/u64/f32/f64 as bit patterns; byte order stated explicitly"
  },
  {
   "property": "C09",
   "status": "proved",
   "theorems": [
    "C09_containers_round_trip",
    "C09_sequence_read_back",
    "C09_float_vector_layout_independent_of_block_size"
   ],
   "note": "all nestings generated by the 'prescription' inductive; block-wise float path independent of the block size"
  },
  {
   "property": "C10",
   "status": "proved",
   "theorems": [
    "C10_null_suppression_lossless",
    "C10_run_counter_overflow_refuted"
   ],
   "note": "within the quantifier (null runs below 2^32); C10_run_counter_overflow_refuted shows the bound is needed"
  },
  {
   "property": "C11",
   "status": "proved",
   "theorems": [
    "C11_buffer_bound_sufficient",
    "C11_buffer_bound_tight"
   ],
   "note": "bound sufficient and tight"
  },
  {
   "property": "C12",
   "status": "partial",
   "theorems": [
    "C12_dense_buffer_round_trip",
    "C12_streaming_round_trip",
    "C12_ill_formed_chunk_rejected",
    "C12_automatic_mode_rejected",
    "C12_automatic_mode_rejected_early_refuted"
   ],
   "note": "round trip proved for all shapes, chunk shapes and modes; ill-formed chunks rejected before writing; false part: the automatic mode throws only after the header was written (C12_automatic_mode_rejected_early_refuted)"
  },
  {
   "property": "C13",
   "status": "partial",
   "theorems": [
    "C13_streaming_append_partial",
    "C13_small_pieces_refuted",
    "C13_final_file_rejects",
    "C13_unequal_chunks_reject",
    "C13_automatic_append_corrupts_refuted"
   ],
   "note": "proved for any axis, number of appends and mix of modes when all pieces but the last are whole numbers of serialisation chunks; false of the code for smaller pieces although the writer accepts them (C13_small_pieces_refuted)"
  },
  {
   "property": "C14",
   "status": "proved",
   "theorems": [
    "C14_cache_is_lru_map",
    "C14_capacity_respected",
    "C14_reached_sizes"
   ],
   "note": "Refinement in both directions against a map with last-use timestamps, for all call histories and capacities >= 1 (capacity 0 makes the constructor undefined: modelled as failure)."
  },
  {
   "property": "C15",
   "status": "proved",
   "theorems": [
    "C15_iteration_complete_and_ordered"
   ],
   "note": "Both traversal orders after any history of calls."
  },
  {
   "property": "C16",
   "status": "proved",
   "theorems": [
    "C16_pool_slots_never_alias",
    "C16_empty_pool_refuted"
   ],
   "note": "All histories of a pool constructed with a positive initial size. A pool constructed with size 0 can never hand out a slot (C16_empty_pool_refuted); size 0 is outside the quantifier of the property."
  },
  {
   "property": "C17",
   "status": "partial",
   "theorems": [
    "C17_contains_iff_in_extent",
    "C17_cleared_box_is_empty",
    "C17_overlaps_iff_common_index_partial",
    "C17_empty_box_overlap_refuted",
    "C17_extend_is_hull",
    "C17_extend_cleared",
    "C17_overlap_volume_counts"
   ],
   "note": "contains, extend, the cleared box and the overlap volume for all proper 64-bit boxes; overlaps iff a common index exists for non-empty boxes only: for empty boxes it is false of the code (C17_empty_box_overlap_refuted)."
  },
  {
   "property": "C18",
   "status": "proved",
   "theorems": [
    "C18_point_lookup",
    "C18_unique_when_disjoint"
   ],
   "note": "For every history of insertions, box updates, clears, bulk rebuilds and lookups (lookups/updates/rebuilds only on a non-empty index: the code has undefined behaviour otherwise); std::sort and std::partial_sort are arbitrary permutations (lib_ok), the slab count arbitrary positive."
  },
  {
   "property": "C19",
   "status": "proved",
   "theorems": [
    "C19_range_query"
   ],
   "note": "Same histories as C18; multiset equality with the items overlapping the query box."
  },
  {
   "property": "C20",
   "status": "proved",
   "theorems": [
    "C20_all_entries",
    "C20_insertion_order",
    "C20_bounding_box",
    "C20_bounding_box_is_hull"
   ],
   "note": "Enumeration for every history; insertion order and exact hull for insertions and lookups. After box updates the reported box covers everything and lies within every box covering all boxes handed over since the last clear or rebuild (it need not shrink)."
  },
  {
   "property": "C21",
   "status": "proved",
   "theorems": [
    "C21_occupancy_and_balance",
    "C21_shape_with_rebuild"
   ],
   "note": "2..10 children, equal leaf depth, covering boxes for every rebuild-free history; with bulk rebuilds the lower bound is 1."
  },
  {
   "property": "C22",
   "status": "proved",
   "theorems": [
    "C22_update"
   ],
   "note": "If several entries contain the coordinate, one of them is replaced."
  },
  {
   "property": "C23",
   "status": "proved",
   "theorems": [
    "C23_rebuild"
   ],
   "note": "Non-empty index; an empty one fails an assertion in RebuildSTR."
  },
  {
   "property": "C24",
   "status": "partial",
   "theorems": [
    "C24_store_returns_latest_contents_partial",
    "C24_cache_size_does_not_matter_partial",
    "C24_axis_change_refuted",
    "C24_other_axis_refuted",
    "C24_default_constructor_refuted"
   ],
   "note": "all histories of register/replace/append (first axis)/remove/retrieve/flush, every cache size incl. 0, any leftover files; false of the code for a change of append axis, for other axes while cached, and for the default constructors (_refuted theorems); appends need the stored part to consist of complete serialisation chunks (see C13)"
  },
  {
   "property": "C25",
   "status": "partial",
   "theorems": [
    "C25_flush_is_durable_partial",
    "C25_second_flush_does_nothing_partial"
   ],
   "note": "every permitted history, any cache size before and after reopening, any continuation; same restrictions as C24"
  },
  {
   "property": "C26",
   "status": "partial",
   "theorems": [
    "C26_unique_ids_partial",
    "C26_reopen_refuted"
   ],
   "note": "all histories of register/append/import/get/fill/loop/flush/move/clear/close+reopen in which nothing is registered or imported into an array that was opened with chunks in it; in that case the claim is false of the code (C26_reopen_refuted: id 0 handed out again, reads return the other chunk); fewer than 2^32 registrations"
  },
  {
   "property": "C27",
   "status": "partial",
   "theorems": [
    "C27_element_access",
    "C27_range_read",
    "C27_null_overlap_refuted"
   ],
   "note": "element access and range read for every permitted history, any layout of disjoint chunks with or without overlap, any cache size; vectors of zeros may come back as +0 (C10); false for element access to all-null chunks with overlap not in the cache (C27_null_overlap_refuted); range reads handle these correctly and are proved"
  },
  {
   "property": "C28",
   "status": "partial",
   "theorems": [
    "C28_null_chunk_transparent_partial",
    "C28_overlap_refuted",
    "C28_is_all_null_exact"
   ],
   "note": "all-null detection exact; chunks without overlap read the same as ordinary ones at any later time; false with overlap (C28_overlap_refuted)"
  },
  {
   "property": "C29",
   "status": "partial",
   "theorems": [
    "C29_append_partial",
    "C29_no_chunk_refuted",
    "C29_axis_refuted"
   ],
   "note": "first axis, no overlap, aligned stored part (see C13), any layout and cache state; false otherwise: no chunk -> null pointer, start inside the chunk accepted, other axes (C29_*_refuted)"
  },
  {
   "property": "C30",
   "status": "partial",
   "theorems": [
    "C30_shape_partial",
    "C30_overflow_refuted"
   ],
   "note": "all histories, layouts, dimensions with fewer than 2^64 indices in the hull; false beyond that (C30_overflow_refuted)"
  },
  {
   "property": "C31",
   "status": "partial",
   "theorems": [
    "C31_import_partial"
   ],
   "note": "all pairs of histories with disjoint boxes and file names (uuids), copy and move; the importing array must not have been opened with chunks in it (see C26_reopen_refuted)"
  },
  {
   "property": "C32",
   "status": "proved",
   "theorems": [
    "C32_chunk_metadata_round_trip",
    "C32_index_file_round_trip",
    "C32_green_metadata_round_trip"
   ],
   "note": "For every chunk metadata record of any dimensionality whose fields fit their C++ types, and every index file."
  },
  {
   "property": "C33",
   "status": "partial",
   "theorems": [
    "C33_partial_rebuild",
    "C33_rebuild",
    "C33_rebuilt_element",
    "C33_cylinder_partial",
    "C33_whole_partial_rebuild",
    "C33_whole_rebuild",
    "C33_whole_rebuilt_element",
    "C33_copied_element"
   ],
   "note": "any history of a gap-free array that starts at the origin, any chunk size, overlap and boundary evaluator, of both variants (the one that gets the chunk: C33_rebuild; the one that gets the array: C33_whole_rebuild, C33_copied_element); what is missing: for the cylindrical rule nothing is said about indices at negative radius whose mirror image is not in the array, where the rule is false (C45_corner_refuted)"
  },
  {
   "property": "C34",
   "status": "partial",
   "theorems": [
    "C34_gap_refuted",
    "C34_offset_refuted",
    "C34_full_arrays_partial"
   ],
   "note": "false as stated: an array with gaps is empty after the rebuild (C34_gap_refuted), one that starts at a positive index loses elements (C34_offset_refuted); it holds for gap-free arrays that start at the origin"
  },
  {
   "property": "C35",
   "status": "partial",
   "theorems": [
    "C35_append_between",
    "C35_append_partial",
    "C35_append_refuted",
    "C35_reading_and_registering",
    "C35_import_copy",
    "C35_flush_partial",
    "C35_move_partial",
    "C35_import_move_partial",
    "C35_rebuild",
    "C35_flush_refuted",
    "C35_move_refuted",
    "C35_import_move_refuted",
    "C35_swap_refuted"
   ],
   "note": "false as stated for flush, move and import-by-move: there always is a crash point after which the old state can be read from no directory (C35_flush_refuted, C35_move_refuted, C35_import_move_refuted), and after SwapAxes the flushed state is lost until the next flush (C35_swap_refuted); proved for all crash points while chunks are registered or read, for import of copies and for RebuildChunks; for the others what is not lost is proved (_partial).  Slices appended in place to flushed chunks since the flush: a crash that does not hit a file while it is changed loses nothing (C35_append_between), any crash loses at most one chunk (C35_append_partial), and one can be lost (C35_append_refuted)."
  },
  {
   "property": "C36",
   "status": "partial",
   "theorems": [
    "C36_downsample_keeps_every_dth_sample",
    "C36_downsampling_commutes_with_chunking",
    "C36_empty_region_at_origin_refuted"
   ],
   "note": "Proved for every array, region start and downsampling factor (size_t arithmetic modelled): a chunk keeps exactly every d-th sample of the global grid, and downsampling the chunks of any tiling equals downsampling the whole. Refuted for an empty region starting at the origin (the index arithmetic wraps)."
  },
  {
   "property": "C37",
   "status": "proved",
   "theorems": [
    "C37_padding_survives_downsampling"
   ],
   "note": "For every requested padding and downsampling factor."
  },
  {
   "property": "C38",
   "status": "proved",
   "theorems": [
    "C38_truncation_keeps_significant_samples"
   ],
   "note": "For every set of simulation chunks and every history of saved slices; scalars are reals (rounding not modelled), the MEEP grid iteration is abstracted to the list of visited points."
  },
  {
   "property": "C39",
   "status": "proved",
   "theorems": [
    "C39_work_divided_exactly_once"
   ],
   "note": "Single-precision arithmetic modelled exactly with Flocq; the result of std::pow is a parameter (at least 1)."
  },
  {
   "property": "C40",
   "status": "partial",
   "theorems": [
    "C40_weights_independent_of_blocks",
    "C40_weights_sum_to_intervals",
    "C40_degenerate_ranges_refuted"
   ],
   "note": "Proved for every number of samples and every split into non-empty blocks, over real numbers (rounding not modelled). Refuted for degenerate ranges (zero samples / empty first block write outside the buffer)."
  },
  {
   "property": "C41",
   "status": "proved",
   "theorems": [
    "C41_partition_of_unity",
    "C41_polynomial_reproduction",
    "C41_nodes_reproduced",
    "C41_sharpness",
    "C41_out_of_range_rejected"
   ],
   "note": "Over real numbers (rounding not modelled)."
  },
  {
   "property": "C42",
   "status": "partial",
   "theorems": [
    "C42_interpolation_is_weighted_sum",
    "C42_nodes_return_stored_elements",
    "C42_constant_array",
    "C42_linear_kernel_is_trilinear",
    "C42_keys_at_lower_boundary_refuted"
   ],
   "note": "Over real numbers, for three-dimensional arrays (the code's static_assert admits no others) and coordinates whose stencil fits in the array. Refuted at the lower boundary with the cubic kernel: zero is returned silently."
  },
  {
   "property": "C43",
   "status": "proved",
   "theorems": [
    "C43_signal_is_direct_sum",
    "C43_signal_from_stored_samples",
    "C43_independent_of_block_sizes",
    "C43_overlap_equal_to_support_refuted"
   ],
   "note": "Over real numbers. For every segment, sample count and positive block sizes, the computed signal is the old signal plus the direct trapezoidal sum over the quadrature points whose time is not after the sample, if every needed point lies in a specified chunk whose interpolation yields the field (C43_signal_is_direct_sum); for libraries of chunks holding common samples this is shown to be the kernel-weighted sum over these samples (C43_signal_from_stored_samples; the chunk overlap is at least the kernel support, and if it is equal no sample is exactly at a chunk's end). That exception is needed (C43_overlap_equal_to_support_refuted): there the code reads beyond the stored array, although the assert accepts the overlap; SignalCalculator uses Keys (support 2) and the calculators write overlap 2."
  },
  {
   "property": "C44",
   "status": "partial",
   "theorems": [
    "C44_null_chunks_at_the_end_partial",
    "C44_null_chunk_before_data_refuted"
   ],
   "note": "Proved if only null chunks (or, with Ignore, the outside) follow after the first null chunk in time. Refuted in general: a null chunk before a specified one shifts all later samples of the call to earlier output positions, because the output iterator is only advanced for specified chunks (GreensFunction.hxx:405-433)."
  },
  {
   "property": "C45",
   "status": "partial",
   "theorems": [
    "C45_boundary_rule_partial",
    "C45_mirrored_element_exists",
    "C45_corner_reads_stale_data_refuted"
   ],
   "note": "Proved for all elements except those at negative radius whose mirrored element lies beyond an outer boundary; for these corners the rule is refuted (they receive stale buffer contents)."
  },
  {
   "property": "C46",
   "status": "proved",
   "theorems": [
    "C46_local_index_exact",
    "C46_offset_kept",
    "C46_local_coordinate_exact"
   ],
   "note": "Signed/unsigned wrap-around arithmetic modelled exactly for indices; coordinates over the real numbers."
  },
  {
   "property": "C47",
   "status": "proved",
   "theorems": [
    "C47_int_div_ceil",
    "C47_int_div_ceil_64bit",
    "C47_int_div_ceil_overflow_refuted"
   ],
   "note": "nat and 64-bit versions; overflow counterexample outside the quantifier"
  },
  {
   "property": "C48",
   "status": "partial",
   "theorems": [
    "C48_line_current",
    "C48_region",
    "C48_geometry",
    "C48_storage_region",
    "C48_default_storage_region",
    "C48_nan_accepted_refuted",
    "C48_failed_set_region_keeps_old_refuted"
   ],
   "note": "Proved for all inputs that are numbers; refuted for NaN (accepted) and for a failed SetRegion (the storage region is left modified)."
  },
  {
   "property": "C49",
   "status": "partial",
   "theorems": [
    "C49_min_max_exact_iff_representable",
    "C49_vectors",
    "C49_min_with_scalar",
    "C49_max_unsigned_with_signed",
    "C49_min_unsigned_with_negative_refuted"
   ],
   "note": "Exact exactly when the operands are representable in the result type; refuted for min of unsigned with a negative signed value."
  },
  {
   "property": "C50",
   "status": "proved",
   "theorems": [
    "C50_numpy_file_well_formed"
   ],
   "note": "Every array of at most 900 axes (longer headers overflow the format v1 length field)."
  },
  {
   "property": "C51",
   "status": "partial",
   "theorems": [
    "C51_array_element",
    "C51_array_range",
    "C51_array_loop",
    "C51_array_box",
    "C51_signed_zero_refuted",
    "C51_lookups_repeatable_partial",
    "C51_lookup_repeatable_refuted"
   ],
   "note": "Tree: proved when at most one stored payload lies at the coordinate, for point, range, enumeration and bounding-box queries; refuted for overlapping boxes (the last-accessed shortcut is visible). Chunked array (disjoint chunks, any history of lookups of all kinds): elements, ranges, loops and the box are the same, except that the signs of zeros in a vector of zeros may differ; refuted without this exception (C51_signed_zero_refuted)."
  },
  {
   "property": "C52",
   "status": "proved",
   "theorems": [
    "C52_loop"
   ],
   "note": "any history, any layout; all-null chunks must have no overlap (see C27_null_overlap_refuted)"
  },
  {
   "property": "C53",
   "status": "proved",
   "theorems": [
    "C53_flushed_array_opens",
    "C53_closed_array_opens",
    "C53_moved_array",
    "C53_cleared_array"
   ],
   "note": "any history; also the move into an empty directory and clearing"
  },
  {
   "property": "C54",
   "status": "proved",
   "theorems": [
    "C54_swap_axes",
    "C54_swapped_elements",
    "C54_swap_twice",
    "C54_swapped_shape"
   ],
   "note": "any history; hypotheses: all-null chunks have no overlap (else see C27_null_overlap_refuted) and the counts written to the files fit"
  },
  {
   "property": "C55",
   "status": "proved",
   "theorems": [
    "C55_closed_directory",
    "C55_flushed_directory",
    "C55_no_stray_files",
    "C55_import_needs_names"
   ],
   "note": "any history of the session relation (register, append, import by copy or move, get, fill, loop, flush, clear, move, swap, close, reopen, rebuild); the directory holds nothing but what the array wrote into it"
  },
  {
   "property": "C56",
   "status": "partial",
   "theorems": [
    "C56_merge",
    "C56_merged_element",
    "C56_rechunk",
    "C56_rechunked_element"
   ],
   "note": "any number of jobs, arrays, padding, chunk size, overlap; the re-chunked array is described completely (C56_rechunk: chunks, box, stored values); what is missing is the reading of an element whose vector is null when an overlap is requested: such an element may be in an all-null chunk with overlap, which the library does not read back (C27_null_overlap_refuted)"
  },
  {
   "property": "C57",
   "status": "proved",
   "theorems": [
    "C57_record",
    "C57_recorded_element",
    "C57_job",
    "C57_job_element"
   ],
   "note": "one process, any number of regions and steps; the field buffers (after truncation) and the list of regions are inputs; the loop over floating-point time is represented by its number of iterations; SwapAxes and the final directory for the three axes of the simulation"
  },
  {
   "property": "C58",
   "status": "proved",
   "theorems": [
    "C58_contains",
    "C58_overlaps",
    "C58_overlaps_empty_refuted",
    "C58_chunk_overlap",
    "C58_chunk_overlap_apart_refuted",
    "C58_portion",
    "C58_portions_tile",
    "C58_field_buffer",
    "C58_save",
    "C58_saved_element",
    "C58_job"
   ],
   "note": "the set of simulation chunks of one process is an input (odd grid coordinates, first point not behind the last, no common cells, as MEEP hands them out); symmetry is the identity and the shift zero, as in this calculator; the decision which elements are truncated is an arbitrary function (its statistics are C38); for empty boxes overlaps, and for boxes without overlap get_chunk_overlap, do not have their intended meaning (shown by the two _refuted theorems); the callers never get there"
  },
  {
   "property": "C60",
   "status": "proved",
   "theorems": [
    "C60_calculate",
    "C60_shape",
    "C60_element"
   ],
   "note": "composition of the models behind C37, C39, C54, C56, C57 and C58: all stages of Calculate up to the final array; the shape of the calculated and of the storage domain, the simulation chunks and the field come from MEEP and are inputs; every cell must belong to exactly one simulation chunk; the coordinates written beside the array (803-823) are not part of it (C59); null values in overlapping arrays as in C27; the loop that looks for a partition size is given enough steps (C39)"
  },
  {
   "property": "C61",
   "status": "partial",
   "theorems": [
    "C61_fill_partial",
    "C61_complete_partial",
    "C61_end_cut_refuted"
   ],
   "note": "Over real numbers. C61_fill_partial: exactly the samples in a specified chunk returned by the query (far faces included) hold the interpolated field, all others are zero. C61_complete_partial: every sample holds the interpolated field if the chunks cover the range and no chunk begins at the truncated end of the range. The rest is refuted by the code (C61_end_cut_refuted): samples behind a chunk boundary at trunc(end) silently stay zero. A single sample along an axis divides by zero and is excluded; the chunk overlap must exceed the kernel support (C43)."
  },
  {
   "property": "C59",
   "status": "partial",
   "theorems": [
    "C59_region_partial",
    "C59_aligned_region",
    "C59_request_refuted",
    "C59_steps",
    "C59_first_sample_refuted",
    "C59_green_function_partial"
   ],
   "note": "Over real numbers, on top of C60. Exact coordinates are refuted by the code for every calculation (C59_first_sample_refuted: the first sample is assigned half a cell too low), and the stored region need not contain the requested one (C59_request_refuted). Proved: bounds on the stored region (C59_region_partial), equality for requests at cell boundaries (C59_aligned_region), which steps are stored (C59_steps), and for the whole calculation that every element is the field at a point at most (d - 1/2) cells from its coordinates along r and z and in (-dt, timestep) in time (C59_green_function_partial). At least two samples along every axis (one divides by zero)."
  },
  {
   "property": "C62",
   "status": "proved",
   "theorems": [
    "C62_dipole",
    "C62_element",
    "C62_shape",
    "C62_grid",
    "C62_negative_radius",
    "C62_offset_refuted",
    "C62_coarser_refuted",
    "C62_small_region_refuted"
   ],
   "note": "Over real numbers, for any function as the field and any requested steps. C62_dipole: terminates, opens, holds the sampled field with chunks and overlaps (sampled_field); C62_element, C62_shape: through the reading interface; C62_grid: the grid begins and ends exactly at the region, d <= step < 2d; C62_negative_radius: what is stored in front of the axis is the field if it is even and the region begins at r = 0. Refuted by the code and recorded as such: offset regions are mirrored wrongly (C62_offset_refuted), steps coarser than required (C62_coarser_refuted), division by zero for small regions (C62_small_region_refuted)."
  },
  {
   "property": "C63",
   "status": "proved",
   "theorems": [
    "C63_analytic_signal",
    "C63_analytic_signal_keys",
    "C63_analytic_fill",
    "C63_analytic_grid",
    "C63_signal",
    "C63_fill",
    "C63_fill_complete"
   ],
   "note": "Arithmetic over real numbers: the stored 32-bit floats are read as the real numbers they are (Flocq binary32), the computation itself is not rounded. C63_signal: apply_accumulate on a library object after any session (state threaded through index and cache); positions must be in specified chunks, or stay in null chunks / outside (if ignoring) where the interpolated field is zero, and the overlap must be at least the kernel support (if equal, no sample exactly at a chunk's end, as C43 shows). C63_fill, C63_fill_complete: fill_array on such an object. C63_analytic_signal, C63_analytic_fill, C63_analytic_grid: from Analytic::ElectricDipole through the directory to signals and samples, linear kernel. C63_analytic_signal_keys: the same with the cubic kernel that SignalCalculator uses (its support equals the overlap of 2): tracks that stay one step off the first radius, or one step inside in height and delay (elsewhere the kernel uses corners of the overlap that hold stale data, C45), with no delay at a multiple of the time step."
  },
  {
   "property": "C64",
   "status": "proved",
   "theorems": [
    "C64_incomplete_gamma",
    "C64_error"
   ],
   "note": "Real arithmetic; std::lgamma is assumed to be ln (n!) at n+1. Termination is stated as a number of loop rounds that suffices. The series bound shows that the stopping rule gives tol*(n+1)/2, not tol."
  },
  {
   "property": "C65",
   "status": "proved",
   "theorems": [
    "C65_filter",
    "C65_field",
    "C65_causal",
    "C65_mirror",
    "C65_axis",
    "C65_inside",
    "C65_order_zero_refuted",
    "C65_stored",
    "C65_signal"
   ],
   "note": "Real arithmetic. The field is specified by derivatives of the Hertz vector (Coquelicot's is_derive). The front itself (t = eta r), where the second derivative of the moment need not exist, is excluded in C65_field. C65_mirror: the stored radial component is even in r, although the physical one is odd (used only for r >= 0 samples and their mirror at the axis). C65_order_zero_refuted: a filter of order 0 passes but the field is identically zero. C65_stored, C65_signal: from the arguments through the directory (C62) to elements and signals (C63); the computation is exact and its result rounded once to a 32-bit float (float_near), tracks keep away from r_min (away), and no overflow is guaranteed by an explicit bound (largest_field)."
  },
  {
   "property": "C66",
   "status": "proved",
   "theorems": [
    "C66_bandwidth",
    "C66_steps",
    "C66_zero_refuted"
   ],
   "note": "Real arithmetic; the actual steps are those of C62 (an integer number of steps in the region). C66_zero_refuted: order 0 or oversampling 0."
  },
  {
   "property": "C67",
   "status": "proved",
   "theorems": [
    "C67_tracks",
    "C67_contiguous",
    "C67_speed",
    "C67_undefined",
    "C67_ice",
    "C67_first_scaling_refuted",
    "C67_dimensions",
    "C67_dimensions_radius_refuted",
    "C67_dimensions_tracks_refuted"
   ],
   "note": "C67_tracks, C67_contiguous, C67_speed, C67_ice, C67_dimensions; the exceptions are proved as C67_first_scaling_refuted, C67_dimensions_radius_refuted, C67_dimensions_tracks_refuted and C67_undefined."
  },
  {
   "property": "C68",
   "status": "proved",
   "theorems": [
    "C68_construct",
    "C68_create",
    "C68_random_refuted",
    "C68_extra_refuted"
   ],
   "note": "The index is explicit: with the default (any negative one) the code indexes with -1 (C68_random_refuted); the extra profile at the end of the file is in C68_construct and C68_extra_refuted. C68_create assumes that the uninitialised energy is one of the file (otherwise it takes part as an additional energy)."
  },
  {
   "property": "C69",
   "status": "proved",
   "theorems": [
    "C69_analytic",
    "C69_analytic_shower",
    "C69_accumulate",
    "C69_corsika",
    "C69_tracks",
    "C69_order",
    "C69_shower"
   ],
   "note": "C69_accumulate, C69_corsika: one track; C69_tracks, C69_order: any list; C69_shower: the example, doubled; C69_analytic, C69_analytic_shower: with the calculation of C62 in front."
  },
  {
   "property": "C70",
   "status": "proved",
   "theorems": [
    "C70_signal",
    "C70_tracks",
    "C70_shower"
   ],
   "note": "C70_signal: one track, either kernel and any batch sizes; C70_tracks, C70_shower: with the cubic kernel. The hypotheses on tracks (in_green) exclude what C44, C45 and C63 refute: delays at the end of a chunk when the overlap is just the support of the kernel, positions in null chunks, and the cubic kernel within one step of the first radius and at the same time of another boundary."
  },
  {
   "property": "C71",
   "status": "proved",
   "theorems": [
    "C71_current_inside",
    "C71_current_before",
    "C71_current_after",
    "C71_current_no_time",
    "C71_last_time",
    "C71_late_current_refuted",
    "C71_scale",
    "C71_to_meep",
    "C71_round_trip",
    "C71_round_trip_exact",
    "C71_round_trip_refuted",
    "C71_in_volume",
    "C71_permittivity",
    "C71_source",
    "C71_corsika"
   ],
   "note": "with 32-bit and 64-bit floating-point numbers and rounding (Flocq), NaN and infinities included; the expectations that do not hold are C71_late_current_refuted and C71_round_trip_refuted"
  },
  {
   "property": "C72",
   "status": "proved",
   "theorems": [
    "C72_is_integer",
    "C72_whole_sizes_accepted",
    "C72_stored_domain",
    "C72_aligned_region",
    "C72_cell_lost_refuted",
    "C72_check_refuted",
    "C72_times",
    "C72_last_slice_refuted",
    "C72_stored_fields",
    "C72_same_timestep",
    "C72_same_timestep_refuted",
    "C72_edges",
    "C72_step"
   ],
   "note": "with 32-bit and 64-bit floating-point numbers and rounding (Flocq); complements C59 (over the reals); the expectations that do not hold are C72_cell_lost_refuted, C72_check_refuted, C72_last_slice_refuted and C72_same_timestep_refuted"
  },
  {
   "property": "C73",
   "status": "proved",
   "theorems": [
    "C73_fixed",
    "C73_scientific",
    "C73_file",
    "C73_missing_values_refuted",
    "C73_values_recovered",
    "C73_times_refuted",
    "C73_times_ordered"
   ],
   "note": "the formats of the C++ standard library are part of the model; the file is read by a separate parser in ExportSpec; the expectations that do not hold are C73_times_refuted and C73_missing_values_refuted; infinities and NaN are modelled but not part of the theorems"
  },
  {
   "property": "C74",
   "status": "proved",
   "theorems": [
    "C74_nodes",
    "C74_positions",
    "C74_keys_interpolation",
    "C74_linear_interpolation",
    "C74_linear_weights",
    "C74_keys_weights"
   ],
   "note": "complements C41 and C42, which are about the same code over the real numbers; every operation is rounded on its own (the project compiles with -ffast-math, which need not do so)"
  },
  {
   "property": "C75",
   "status": "partial",
   "theorems": [
    "C75_chunk_samples",
    "C75_time_error",
    "C75_first_sample",
    "C75_time_since_point",
    "C75_point_times",
    "C75_whole_track",
    "C75_signal",
    "C75_causality_refuted",
    "C75_chunk_end_refuted",
    "C75_intervals",
    "C75_any_times",
    "C75_stops"
   ],
   "note": "proved if the times are multiples of a power of two within 2^24 of them and the track lasts a whole number of units (C75_signal, C75_chunk_samples), and with an error bound for any times (C75_time_error); for any times the calculation either stops at the assertion in line 326 (C75_stops) or the signal has exactly the contributions, with an error bound for the choice of the first sample and for the times (C75_any_times); in general the code refutes it: rounding makes the causality assertion fail (C75_causality_refuted) and the assertion at the end of a chunk (C75_chunk_end_refuted). Complements C43, which is about the same code over the real numbers; every operation is rounded on its own"
  },
  {
   "property": "C76",
   "status": "proved",
   "theorems": [
    "C76_index",
    "C76_contributions",
    "C76_chunk_values",
    "C76_signal",
    "C76_product",
    "C76_sample",
    "C76_place",
    "C76_weight",
    "C76_current",
    "C76_radial",
    "C76_track_signal"
   ],
   "note": "if the calculation returns (C75 is about when it does not); chunks without null values, found for every index that is needed; every operation is rounded on its own. C76_chunk_values is about one chunk, C76_index about the indices, C76_contributions about the loop over the chunks, C76_signal about the whole signal of a track with any times, C76_place, C76_weight, C76_current and C76_radial about the positions, weights, currents and radial components of the points, and C76_track_signal combines C76_signal and C76_place: the contributions are those at the exact points of the track; C76_product is about the rounding of one contribution, and C76_sample says what the samples are: the old value plus the sum of the exact contributions, up to an error that is proportional to the number of points (for signals of floats and of doubles: adds_float, adds_double)"
  },
  {
   "property": "C77",
   "status": "partial",
   "theorems": [
    "C77_float_defined",
    "C77_float",
    "C77_float_rows",
    "C77_float_close_rows_refuted",
    "C77_float_permittivity",
    "C77_float_impulse_response",
    "C77_permittivity",
    "C77_unique",
    "C77_rows",
    "C77_last_row_refuted",
    "C77_between",
    "C77_equal_arguments_refuted",
    "C77_impulse_response",
    "C77_late_table_refuted",
    "C77_row_order",
    "C77_read",
    "C77_blank_line_refuted",
    "C77_header_refuted"
   ],
   "note": "over real numbers; true for tables of any size in any order of rows, without two rows with the same argument, at every argument from the smallest one up to, but not including, the largest one (C77_permittivity, C77_unique, C77_rows, C77_between, C77_row_order), and for impulse responses that are in order and start not after 0 (C77_impulse_response); reading: C77_read. Refuted: at the largest argument of every table an exception is thrown (C77_last_row_refuted), rows with equal arguments make the result depend on std::sort (C77_equal_arguments_refuted), a late impulse response throws (C77_late_table_refuted), blank lines and headers are not skipped (C77_blank_line_refuted, C77_header_refuted). In 32-bit floats: no assertion of lin_interp fails (C77_float_defined), for tables of moderate numbers the result is within 16 M / 2^24 (M the largest value) of the function (C77_float) and exact at the rows (C77_float_rows); rows closer than about 2^-128 of each other can give NaN (C77_float_close_rows_refuted). The permittivity is within 40 M^2 / 2^24 of the square (C77_float_permittivity), and the impulse response as lin_interp (C77_float_impulse_response). std::stof is any function; std::pow(x, 2.0) is taken to be the exact square of a float"
  },
  {
   "property": "C78",
   "status": "partial",
   "theorems": [
    "C78_range",
    "C78_deeper",
    "C78_layers_refuted",
    "C78_filter",
    "C78_peak",
    "C78_unit",
    "C78_example"
   ],
   "note": "over real numbers, for every order and peaking time of the filter (the example has 4 and 2). True: the bounds (C78_range), growth with depth in each of the two layers (C78_deeper), the filter is the one of the analytic calculator (C78_filter), its peak and its integral (C78_peak, C78_unit), and the constants of the example (C78_example). Refuted: the permittivity does not grow with depth across the boundary of the layers at 14.9 m (C78_layers_refuted). std::lgamma is exact at the positive integers"
  },
  {
   "property": "C79",
   "status": "proved",
   "theorems": [
    "C79_joined",
    "C79_ends",
    "C79_whole",
    "C79_large_times_throws",
    "C79_example"
   ],
   "note": "in 32-bit floats, for every start, end, step, velocity and charge: C79_joined (tracks join up without gaps, bit for bit), C79_ends (the loop always ends), C79_whole (exactly one track per step for whole times up to 2^24, positions correctly rounded), C79_example (500 tracks), C79_large_times_throws. The signal of the tracks is the subject of C69, C75 and C76; std::exp of the charge is any function"
  },
  {
   "property": "C80",
   "status": "proved",
   "theorems": [
    "C80_times",
    "C80_increasing",
    "C80_interval",
    "C80_example"
   ],
   "note": "in 32-bit floats, for all finite start, end and step up to 2^60 in size and at most 2^23 steps: C80_times (number of samples, each time within two roundings of t0 + i dt, never going back), C80_increasing (strictly increasing if the step exceeds the rounding of the times), C80_interval (the step is 1 / rate up to two roundings), C80_example (1250 different times, within 0.0002 of 1050 + i / 5)"
  }
 ]
}
{"id": "C01", "title": "Array element addressing is a bijection", "statement": "For an array of any shape and vector length, every in-range index addresses its own vector-sized run of the array's storage, the runs of two different indices never overlap, they all lie inside the storage, and together they fill it completely. Writing through one index therefore changes exactly that element.", "quantifier": "all dimensionalities, shapes, vector lengths and pairs of indices", "why_tests_cant": "A test addresses a few shapes; a stride bug can show up only for one combination of dimensions.", "anchors": ["eisvogel/core/impl/NDVecArray.hh: ComputeStrides, ComputeFlatInd, ComputeVolume", "eisvogel/core/impl/NDVecArray.hxx: operator[]"]}
{"id": "C02", "title": "Element loops visit every index exactly once, in row-major order", "statement": "Iterating over the elements of an index range [begin, end) calls the worker exactly once for each index of the box, in lexicographic (row-major) order, never for an index outside, and terminates.", "quantifier": "all dimensionalities and all begin/end pairs with a non-empty box", "why_tests_cant": "The loop carries an index vector through nested wrap-arounds; each (begin,end) exercises a different carry pattern.", "anchors": ["eisvogel/core/impl/IteratorUtils.hh: index_loop_over_elements, isInIndexRange, carry logic", "eisvogel/core/impl/NDVecArray.hxx: index_loop_over_elements"]}
{"id": "C03", "title": "Chunk loops tile the region", "statement": "Looping over a region in chunks of a requested size calls the worker with sub-boxes that are non-empty, at most the requested size along every axis, contained in the region, pairwise disjoint and together cover the region, for any positive chunk size.", "quantifier": "all dimensionalities, regions and positive chunk sizes (also chunk sizes that do not divide the region)", "why_tests_cant": "Off-by-one at the last (partial) chunk along any subset of axes; there are unboundedly many shape/chunk combinations.", "anchors": ["eisvogel/core/impl/IteratorUtils.hh: index_loop_over_chunks", "eisvogel/meep/impl/MEEPCylindricalGreensFunctionCalculator.hxx: rechunk_mpi"]}
{"id": "C04", "title": "Appending along the outermost axis is concatenation", "statement": "After appending a slice to an array along the outermost axis, indices below the old extent read the old element, indices at or above read the corresponding slice element, and the shape grows by exactly the slice's extent; a slice whose other extents differ is rejected and nothing changes.", "quantifier": "all arrays and slices and all sequences of appends", "why_tests_cant": "Correctness depends on the memory layout for every shape and on sequences of appends of any length.", "anchors": ["eisvogel/core/impl/NDVecArray.hxx: Append", "eisvogel/core/impl/NDVecArray.hh: ShapeAllowsConcatenation"]}
{"id": "C05", "title": "Swapping two axes permutes elements and is an involution", "statement": "After swapping axes i and j of an array, reading index x gives what the original gave at x with coordinates i and j exchanged, the shape has extents i and j exchanged, and swapping again restores the original array.", "quantifier": "all arrays, axis pairs and indices", "why_tests_cant": "Needs all shapes; square test arrays hide stride mistakes.", "anchors": ["eisvogel/core/impl/NDVecArray.hxx: SwapAxes", "eisvogel/core/impl/DistributedNDVecArray.hxx: ChunkMetadata::SwapAxes, ChunkLibrary::SwapAxes"]}
{"id": "C06", "title": "Region copy between arrays changes exactly the target block", "statement": "Copying a source range into a target array at an offset makes each target element of the block equal to the corresponding source element and leaves every other target element unchanged.", "quantifier": "all source/target arrays, ranges and offsets that fit", "why_tests_cant": "Frame condition over all indices outside the block.", "anchors": ["eisvogel/core/impl/NDVecArray.hxx: fill_from", "eisvogel/core/impl/IteratorUtils.hh"]}
{"id": "C07", "title": "Copying an array copies its contents", "statement": "A copy-constructed or copy-assigned array has the same shape and the same element at every index as the object it was copied from, including when that object is a view onto part of another array.", "quantifier": "all arrays and views", "why_tests_cant": "The failing case needs a view with non-zero offset, and the result is only visible through later reads.", "anchors": ["eisvogel/core/impl/NDVecArray.hxx: copy constructor, operator=", "eisvogel/core/impl/NDVecArray.hh: View"]}
{"id": "C08", "title": "Scalar serialisation round-trips every bit pattern and is big-endian", "statement": "Serialising any 32/64-bit integer, float or double writes a fixed number of bytes, most significant first, and deserialising these bytes returns the identical bit pattern (also for NaN payloads, infinities and negative zero), regardless of what follows in the stream.", "quantifier": "all 2^32 / 2^64 values and all trailing stream contents", "why_tests_cant": "2^64 values cannot be enumerated.", "anchors": ["eisvogel/core/impl/DefaultSerializationTraits.hxx", "eisvogel/core/impl/Serialization.hh"]}
{"id": "C09", "title": "Container serialisation round-trips and is self-delimiting", "statement": "Serialising vectors (including the block-wise path for float vectors), fixed arrays, strings, maps and nested combinations and then deserialising returns an equal value and leaves the stream exactly after the value, so that values written one after another are read back one after another.", "quantifier": "all container sizes (including sizes that are not multiples of the internal block size) and contents", "why_tests_cant": "Block-boundary sizes and arbitrary nesting cannot be enumerated.", "anchors": ["eisvogel/core/impl/DefaultSerializationTraits.hxx: vector<float>, vector<T>, array, map, string"]}
{"id": "C10", "title": "Null suppression is lossless up to the sign of zero", "statement": "Encoding any array with null suppression and decoding it gives back the same vectors in the same order, where vectors all of whose components are zero come back as (positive) zeros and all others are bit-identical.", "quantifier": "all element sequences (any pattern and length of null runs) with at most 2^32-1 nulls in one run", "why_tests_cant": "Encoder is a run-length state machine; all run patterns at start, middle and end of data matter.", "anchors": ["eisvogel/core/impl/NDVecArraySerialization.hh: nullsup::suppress_null, desuppress_null"]}
{"id": "C11", "title": "The null-suppression buffer bound is sufficient", "statement": "The buffer size computed ahead of encoding is never exceeded by the encoder, for any data.", "quantifier": "all element sequences and vector lengths", "why_tests_cant": "The worst case is an alternating pattern whose overhead depends on parity of the length.", "anchors": ["eisvogel/core/impl/NDVecArraySerialization.hh: calculate_required_buflen, suppress_null", "eisvogel/core/impl/MathUtils.hxx: IntDivCeil"]}
{"id": "C12", "title": "Array streaming round-trips", "statement": "An array written with any well-formed serialisation chunk shape and any supported access mode (dense or null-suppressed) is read back with the same shape and the same elements; an automatic mode or ill-formed serialisation chunk is rejected before any data are written.", "quantifier": "all array shapes, serialisation chunk shapes, modes and contents", "why_tests_cant": "Interaction of chunk tiling, partial edge chunks and the codec for every shape.", "anchors": ["eisvogel/core/impl/NDVecArrayStreamer.hxx: serialize, deserialize, serialize_all_chunks"]}
{"id": "C13", "title": "Streaming append equals appending in memory", "statement": "After writing an array and appending any number of slices along the outermost axis directly in the file, reading the file gives the concatenation of the array and all slices.", "quantifier": "all arrays, slices, numbers of appends and serialisation chunk shapes accepted by the writer", "why_tests_cant": "Only particular combinations of extents and serialisation chunk size misplace data, and only after the file is read back.", "anchors": ["eisvogel/core/impl/NDVecArrayStreamer.hxx: append_slice, deserialize, permits_equally_sized_serialization_chunks"]}
{"id": "C14", "title": "The element cache behaves as an LRU map", "statement": "For any sequence of insertions, lookups and evictions, a cache of capacity n >= 1 returns for a key exactly the value last inserted and not since evicted, never holds more than n entries, never holds a key twice, and evicting the oldest element always removes the least recently inserted-or-accessed one.", "quantifier": "all capacities >= 1 and all operation sequences", "why_tests_cant": "The intrusive list is re-linked on every access; corrupted links only show for particular access orders.", "anchors": ["eisvogel/core/impl/Cache.hxx", "eisvogel/core/impl/Cache.hh"]}
{"id": "C15", "title": "Iteration over the cache is complete and ordered by age", "statement": "Looping over the cache from old to new (or new to old) visits each stored element exactly once, in order of last use.", "quantifier": "all reachable cache states", "why_tests_cant": "Depends on link consistency after arbitrary histories.", "anchors": ["eisvogel/core/impl/Cache.hxx: loop_over_elements_old_to_new, loop_over_elements_new_to_old"]}
{"id": "C16", "title": "Pool slots never alias and keep their contents", "statement": "A slot handed out by the node pool is different from all slots currently in use, its contents are not changed by later allocations, growth or frees of other slots, and iteration enumerates exactly the live slots in allocation order.", "quantifier": "all sequences of allocate/free/grow/reset", "why_tests_cant": "Free/alloc lists share storage; aliasing appears only for particular free/alloc interleavings and growth points.", "anchors": ["eisvogel/core/impl/RStarTree.hxx: MemoryPool"]}
{"id": "C17", "title": "Bounding-box predicates agree with point membership", "statement": "A box contains a point iff each coordinate lies in its half-open extent; two boxes are reported to overlap iff some index lies in both; extending a box gives the smallest box containing both; the reported overlap volume is the number of common indices.", "quantifier": "all dimensionalities, boxes and points representable as 64-bit unsigned coordinates", "why_tests_cant": "The containment test relies on unsigned wrap-around, which must be right for all 2^64 values.", "anchors": ["eisvogel/core/impl/RStarTree.hxx: BoundingBox", "eisvogel/core/impl/ChunkUtils.hh"]}
{"id": "C18", "title": "Spatial index: point lookup is sound and complete", "statement": "After any sequence of insertions into the spatial index, looking up a coordinate returns an entry whose box contains the coordinate if any inserted entry does, and reports 'not found' otherwise; with disjoint entries the entry is the unique one.", "quantifier": "all insertion sequences, all coordinates, all tree shapes reached through splits and forced re-insertion", "why_tests_cant": "Splits and re-insertions depend on the complete insertion history; a missing entry shows up only for specific histories.", "anchors": ["eisvogel/core/impl/RStarTree.hxx: InsertElement, Search, split, reinsert, overflow_treatment"]}
{"id": "C19", "title": "Spatial index: range query returns exactly the overlapping entries", "statement": "A range query returns every inserted entry whose box overlaps the query box, each exactly once, and nothing else.", "quantifier": "all insertion sequences and query boxes", "why_tests_cant": "As C18; duplicates or misses depend on tree shape.", "anchors": ["eisvogel/core/impl/RStarTree.hxx: Search(start_coords, end_coords)"]}
{"id": "C20", "title": "Spatial index: no entry is lost or duplicated", "statement": "Enumerating all entries of the index after any history gives exactly the inserted entries, each once, in insertion order, and the reported bounding box is the hull of all entries.", "quantifier": "all histories", "why_tests_cant": "Forced re-insertion temporarily detaches entries; losing one is history dependent.", "anchors": ["eisvogel/core/impl/RStarTree.hxx: GetAllEntries, Apply, GetBoundingBox, reinsert"]}
{"id": "C21", "title": "Spatial index: node occupancy and balance", "statement": "After any insertion sequence every node holds between the minimum and maximum number of children (root excepted), all leaves have the same depth, and every node's box covers all boxes below it.", "quantifier": "all insertion sequences", "why_tests_cant": "Structural invariant over unbounded histories.", "anchors": ["eisvogel/core/impl/RStarTree.hxx: split, insert_slot, recalculate_bbox"]}
{"id": "C22", "title": "Spatial index: growing an entry keeps lookups correct", "statement": "After the entry covering a coordinate is replaced by a box, point and range lookups behave as if the entry had been inserted with the new box from the start.", "quantifier": "all histories, entries and new boxes", "why_tests_cant": "Ancestor boxes have to be updated on the right path for every tree shape.", "anchors": ["eisvogel/core/impl/RStarTree.hxx: UpdateBoundingBox, search_entry_update_bbox"]}
{"id": "C23", "title": "Spatial index: bulk rebuild preserves content", "statement": "Rebuilding the index for query speed does not change the set of entries nor the result of any lookup.", "quantifier": "all indices with at least one entry", "why_tests_cant": "Tile/partition arithmetic depends on the number of entries.", "anchors": ["eisvogel/core/impl/RStarTree.hxx: RebuildSTR, sort_STR"]}
{"id": "C24", "title": "Chunk store returns what was stored, for any cache size", "statement": "For any sequence of registering, replacing, appending to, removing and retrieving chunks, retrieving a chunk returns its latest contents, no matter how small the cache is and which chunks were evicted to disk in between.", "quantifier": "all operation sequences and cache depths (including 0)", "why_tests_cant": "State is split between cache entries (with pending-sync status) and files; bugs need particular eviction interleavings.", "anchors": ["eisvogel/core/impl/DistributedNDVecArray.hxx: ChunkCache"]}
{"id": "C25", "title": "Flushing makes all contents durable", "statement": "After flushing, a store reopened on the same directory returns for every chunk the same contents as before, and flushing twice is the same as flushing once.", "quantifier": "all operation histories before the flush", "why_tests_cant": "Which chunks are dirty, and with which pending operation, depends on the full history.", "anchors": ["eisvogel/core/impl/DistributedNDVecArray.hxx: FlushCache, sync_cache_element_with_disk, ChunkLibrary::FlushLibrary"]}
{"id": "C26", "title": "Chunk identity is unique", "statement": "At any time, two different chunks of a library have different identifiers, also after the library has been closed and reopened, or another library was imported, so that reading one chunk never returns another chunk's data.", "quantifier": "all histories of register, reopen and import", "why_tests_cant": "Requires a reopen in the middle of a history, followed by registration and cache hits.", "anchors": ["eisvogel/core/impl/DistributedNDVecArray.hxx: ChunkIndex::RegisterChunk, load_and_rebuild_index, ImportIndex"]}
{"id": "C27", "title": "Element access returns the registered value", "statement": "Reading an index of a distributed array returns the value of the chunk covering it, as registered (plus appended slices), and a range read into a buffer gives exactly these values for the whole range.", "quantifier": "all sets of disjoint chunks, all indices and ranges covered by them", "why_tests_cant": "Combines spatial index, cache, offsets and disk for arbitrary layouts and access orders.", "anchors": ["eisvogel/core/impl/DistributedNDVecArray.hxx: ChunkLibrary::operator[], FillArray"]}
{"id": "C28", "title": "All-null optimisation is transparent", "statement": "Registering a chunk of zeros with the optimisation enabled gives the same reads as without it, also after the chunk has left the cache.", "quantifier": "all chunk shapes, overlaps and cache histories", "why_tests_cant": "Difference only visible after eviction, for chunks with overlap.", "anchors": ["eisvogel/core/impl/DistributedNDVecArray.hxx: ChunkLibrary::RegisterChunk, deserialize_into_cache", "eisvogel/core/impl/NDVecArray.hxx: IsAllNull"]}
{"id": "C29", "title": "Appending a slice to the distributed array extends the covering chunk", "statement": "Appending a slice at a start index extends the chunk that ends exactly there along the chosen axis; afterwards all previously stored elements read as before and the new index range reads the slice; if no such chunk exists an error is reported.", "quantifier": "all layouts, slices, axes and cache states", "why_tests_cant": "Depends on cache state (in memory / on disk / pending append) of the chunk at the time of the append.", "anchors": ["eisvogel/core/impl/DistributedNDVecArray.hxx: ChunkLibrary::AppendSlice, ChunkCache::AppendSlice, ChunkIndex"]}
{"id": "C30", "title": "Array shape is reported only for gap-free arrays", "statement": "For disjoint chunks, the reported shape is the extent of the hull iff the chunks tile the hull without gaps, and zero otherwise; the start index is the hull's corner.", "quantifier": "all sets of disjoint chunks", "why_tests_cant": "Volume argument must hold for every layout in every dimension.", "anchors": ["eisvogel/core/impl/DistributedNDVecArray.hxx: calculate_and_cache_index_metadata, GetShape, GetStartInd"]}
{"id": "C31", "title": "Importing merges without loss", "statement": "Importing another array's directory makes all its chunks readable at their indices in the importing array, leaves existing chunks unchanged and, when copying, leaves the source intact.", "quantifier": "all pairs of arrays with disjoint index ranges", "why_tests_cant": "File-name and id bookkeeping over arbitrary histories.", "anchors": ["eisvogel/core/impl/DistributedNDVecArray.hxx: ImportLibrary, ImportIndex, ImportCache"]}
{"id": "C32", "title": "Chunk and Green's-function metadata round-trip", "statement": "Every chunk metadata record and Green's-function metadata record written to disk is read back equal, and a list of records written to an index file is read back as the same list.", "quantifier": "all metadata values", "why_tests_cant": "All values of all fields.", "anchors": ["eisvogel/core/impl/DistributedNDVecArray.hxx: Traits<ChunkMetadata>, ChunkIndex::FlushIndex, load_and_rebuild_index", "eisvogel/core/impl/GreensFunction.hxx: Traits<CylindricalGreensFunctionMetadata>"]}
{"id": "C33", "title": "Rebuilding chunks preserves every element", "statement": "After re-chunking an array with any chunk size and overlap, every index of the array reads the same value as before; inside a chunk's overlap region the stored values equal the neighbouring elements or, outside the array, the boundary rule.", "quantifier": "all arrays starting at the origin, chunk sizes, overlaps", "why_tests_cant": "Signed/unsigned offsets at array edges and corners for each overlap and chunk size.", "anchors": ["eisvogel/core/impl/DistributedNDVecArray.hxx: RebuildChunksPartial, RebuildChunks, index_loop_over_penetrating_chunk_elements"]}
{"id": "C34", "title": "Rebuilding never loses data", "statement": "Re-chunking an array never makes previously readable elements unreadable, in particular when the array does not start at index zero or is not gap free.", "quantifier": "all arrays", "why_tests_cant": "Requires arrays with offset or gaps; loss is only visible afterwards.", "anchors": ["eisvogel/core/impl/DistributedNDVecArray.hxx: RebuildChunks"]}
{"id": "C35", "title": "A crash never loses acknowledged data", "statement": "If the process stops at any point during a flush, a move, an import or a rebuild, the data that was on disk before can still be read from one of the directories involved.", "quantifier": "all crash points in all operations", "why_tests_cant": "Crash points between individual file operations cannot be enumerated by tests for every state.", "anchors": ["eisvogel/core/impl/DistributedNDVecArray.hxx: FlushLibrary, MoveLibrary, ImportLibrary, RebuildChunks"]}
{"id": "C36", "title": "Downsampling commutes with chunking", "statement": "Downsampling a region chunk by chunk and placing the results at the reported start indices gives the same array as downsampling the complete region: output element k is input element k*d, every output element is produced by exactly one chunk, and the output shape is the number of multiples of d in the region.", "quantifier": "all regions, partitions into chunks and positive factors", "why_tests_cant": "Phase of the chunk start relative to the factor, for all chunk layouts.", "anchors": ["eisvogel/core/impl/NDVecArrayOperations.hxx: get_downsampled_shape, downsample"]}
{"id": "C37", "title": "Padding survives downsampling", "statement": "Adding p_pre and p_post samples of padding (in downsampled units) around a domain before downsampling adds exactly p_pre + p_post elements to the downsampled shape, and the padded region stays inside the calculated domain.", "quantifier": "all domain shapes, paddings and factors", "why_tests_cant": "The calculation relies on an (assert-only) identity that must hold for all values.", "anchors": ["eisvogel/meep/impl/MEEPCylindricalGreensFunctionCalculator.hxx: calculate_mpi_chunk", "eisvogel/core/impl/NDVecArrayOperations.hxx"]}
{"id": "C38", "title": "Dynamic-range truncation keeps significant samples", "statement": "A stored field sample is either the computed one or zero; it is zeroed iff its magnitude is below (running local maximum)/(dynamic range) or the running local maximum has not exceeded the absolute threshold, where the running local maximum is the largest magnitude seen so far in the sample's cell.", "quantifier": "all field histories, thresholds and cell sizes", "why_tests_cant": "Depends on the complete time history of each cell.", "anchors": ["eisvogel/meep/impl/MEEPCylindricalGreensFunctionCalculator.hxx: FieldStatisticsTracker, limit_field_dynamic_range"]}
{"id": "C39", "title": "Re-chunking work is divided exactly once among jobs", "statement": "For any number of jobs every partition of the array is processed by exactly one job and the partitions tile the array; partition sizes are multiples of the chunk size, so partition borders coincide with chunk borders.", "quantifier": "all array shapes, chunk sizes and numbers of jobs", "why_tests_cant": "All job counts and shapes.", "anchors": ["eisvogel/meep/impl/MEEPCylindricalGreensFunctionCalculator.hxx: rechunk_mpi, get_partition_size"]}
{"id": "C40", "title": "Quadrature weights are independent of block decomposition", "statement": "The trapezoid weights used for the signal integral are 1/2 at the first and last sample and 1 in between, no matter into which blocks the samples are divided; they sum to the number of intervals.", "quantifier": "all sample counts and block partitions", "why_tests_cant": "All splits into blocks.", "anchors": ["eisvogel/core/impl/Quadrature.hh", "eisvogel/core/impl/GreensFunction.hxx: apply_accumulate"]}
{"id": "C41", "title": "Interpolation kernels form a partition of unity and reproduce samples", "statement": "The linear and cubic (Keys) kernel weights sum to one for every fractional position, reproduce the sample value at a node, and reproduce linear (resp. quadratic) functions exactly.", "quantifier": "all real fractional positions and all polynomials of the given degree", "why_tests_cant": "Continuum of inputs.", "anchors": ["eisvogel/core/impl/Interpolation.hxx: Kernel::Linear, Kernel::Keys"]}
{"id": "C42", "title": "Array interpolation at a grid node returns the stored element", "statement": "Interpolating an array of any dimensionality at integer coordinates returns the stored vector, a constant array interpolates to the constant everywhere, and with the linear kernel the interpolated value is multilinear.", "quantifier": "all arrays, dimensionalities and coordinates in range", "why_tests_cant": "Continuum of coordinates and all shapes.", "anchors": ["eisvogel/core/impl/Interpolation.hxx: interpolate"]}
{"id": "C43", "title": "Signal accumulation equals the direct sum", "statement": "The signal computed block-wise equals the weighted sum over all quadrature points of the source-kernel product for every requested sample, independent of internal block sizes, with no contribution from times before the signal can arrive.", "quantifier": "all currents, sample counts, block sizes", "why_tests_cant": "All block decompositions and causality cut positions.", "anchors": ["eisvogel/core/impl/GreensFunction.hxx: apply_accumulate, accumulate_inner_product"]}
{"id": "C44", "title": "Samples falling into all-null chunks do not shift the result", "statement": "When part of a Green's function is known to be zero, the samples falling into this part contribute zero and all other samples are accumulated at their own output position.", "quantifier": "all layouts of null and non-null chunks along the time axis", "why_tests_cant": "Requires a null chunk in the middle of a sample range.", "anchors": ["eisvogel/core/impl/GreensFunction.hxx: accumulate_inner_product, fill_array"]}
{"id": "C45", "title": "The cylindrical boundary rule mirrors at the axis", "statement": "Outside the array, elements at negative radial index read the mirrored element and elements beyond the outer boundaries read zero; no read outside the array is ever performed.", "quantifier": "all arrays and all signed indices in the overlap region", "why_tests_cant": "All edge/corner combinations.", "anchors": ["eisvogel/core/impl/Symmetry.hxx: boundary_evaluator"]}
{"id": "C46", "title": "Conversion to chunk-local indices is exact", "statement": "For every index inside a chunk's overlap-extended region the chunk-local position lies inside the stored chunk, also where the subtraction of the overlap wraps around below zero.", "quantifier": "all chunk start indices (including 0), overlaps and indices (64-bit)", "why_tests_cant": "Relies on unsigned wrap-around for each start < overlap.", "anchors": ["eisvogel/core/impl/DistributedNDVecArray.hxx: ChunkMetadata loc_ind_offset", "eisvogel/core/impl/GreensFunction.hxx: to_chunk_local_ind"]}
{"id": "C47", "title": "Integer ceiling division", "statement": "IntDivCeil(a, b) is the smallest integer not below a/b, whenever a + b does not overflow.", "quantifier": "all a, b > 0", "why_tests_cant": "All 64-bit pairs.", "anchors": ["eisvogel/core/impl/MathUtils.hxx: IntDivCeil"]}
{"id": "C48", "title": "Inputs are validated", "statement": "A line current with end time not after its start time, an unphysical cylinder region or geometry, a storage region outside the geometry or an empty one are rejected with an error; all others are accepted unchanged.", "quantifier": "all parameter values", "why_tests_cant": "All combinations of parameters.", "anchors": ["eisvogel/core/impl/Current.hxx", "eisvogel/core/impl/Geometry.hxx", "eisvogel/meep/impl/MEEPCylindricalGreensFunctionCalculator.hxx: constructor"]}
{"id": "C49", "title": "Sign-safe component-wise min/max", "statement": "Component-wise minimum and maximum of index vectors of different signedness are the mathematical minimum and maximum whenever the result is representable in the result type.", "quantifier": "all mixed-sign inputs", "why_tests_cant": "2^128 input pairs.", "anchors": ["eisvogel/core/impl/Vector.hxx: min, max"]}
{"id": "C50", "title": "Exported numpy files are well formed", "statement": "The header of an exported file has the length the format requires (multiple of 64 including magic), declares the array's shape, and is followed by exactly the array's data in row-major order.", "quantifier": "all array shapes", "why_tests_cant": "Padding depends on the printed length of the shape.", "anchors": ["eisvogel/core/impl/NDVecArray.hxx: to_numpy/save"]}
{"id": "C51", "title": "Spatial lookups are repeatable", "statement": "Looking up a coordinate, element or range does not change the result of any later lookup (the last-accessed shortcut and cache are invisible).", "quantifier": "all histories of lookups and modifications", "why_tests_cant": "The shortcut is stale only after particular modifications.", "anchors": ["eisvogel/core/impl/RStarTree.hxx: Search (last accessed entry)", "eisvogel/core/impl/DistributedNDVecArray.hxx: operator[]"]}
{"id": "C52", "title": "Looping over an index range visits every stored element of it once", "statement": "index_loop_over_elements over an index range of a distributed array calls the worker exactly once for every index of the range that belongs to a chunk, with that index and the stored value, and for no other index.", "quantifier": "all arrays (any history), all non-empty index ranges, also ranges reaching beyond the array", "why_tests_cant": "Depends on chunk layout, overlaps, the spatial index and the cache state.", "anchors": ["eisvogel/core/impl/DistributedNDVecArray.hxx: ChunkLibrary::index_loop_over_elements, ChunkIndex::GetChunks"]}
{"id": "C53", "title": "Flushed, closed and moved arrays open as the same array", "statement": "After FlushLibrary the files on disk open as an array with exactly the same elements, whatever the running program does later; closing and reopening, and moving, keep all elements, and clearing removes them.", "quantifier": "all histories, any cache size before and after, any serialisation chunk shape for the reopened array", "why_tests_cant": "Index file, chunk files, cached and partially appended chunks must be consistent at every possible flush point.", "anchors": ["eisvogel/core/impl/DistributedNDVecArray.hxx: FlushLibrary, MoveLibrary, ClearLibrary, ChunkIndex constructors and destructor"]}
{"id": "C54", "title": "Exchanging two axes of a distributed array only relabels its elements", "statement": "After SwapAxes<i,j> on a distributed array, an index can be read if and only if the index with components i and j exchanged could be read before, and it gives the same value (null vectors may come back as positive zeros); the region covered and the presence of gaps are exchanged likewise, and exchanging twice restores the array.", "quantifier": "all arrays (any history, any number and arrangement of chunks, cached or not), all pairs of axes, all indices", "why_tests_cant": "The chunk tree is updated while it is walked, chunks are evicted, replaced and rewritten on the way; correctness depends on the arrangement of all chunks.", "anchors": ["eisvogel/core/impl/DistributedNDVecArray.hxx: ChunkLibrary::SwapAxes, map_over_chunks, ChunkIndex::Map, ChunkMetadata::SwapAxes, ChunkCache::ReplaceChunk", "eisvogel/core/impl/NDVecArray.hxx: SwapAxes"]}
{"id": "C55", "title": "The directory of an array contains its index and one file per stored chunk, and nothing else", "statement": "After an array is flushed or closed, its directory contains an index file and exactly one file for every chunk that is not all-null, no two chunks sharing a file; at no time does it contain a file that belongs to none of its chunks (nothing is left behind by replacing, importing, moving, clearing or rebuilding). Hence two arrays whose chunks have different names can always be merged without overwriting a file.", "quantifier": "all histories of an array, any cache size, any chunks", "why_tests_cant": "Files are created and deleted by the cache at moments that depend on the whole history of evictions, appends and imports.", "anchors": ["eisvogel/core/impl/DistributedNDVecArray.hxx: ChunkCache::descope_cache_element, sync_cache_element_with_disk, RemoveChunk, ReplaceChunk, ImportCache, MoveCache, ClearCache; ChunkLibrary::FlushLibrary, ImportLibrary, MoveLibrary, ClearLibrary"]}
{"id": "C56", "title": "Merging arrays and re-chunking in parallel give the same array for any number of jobs", "statement": "Merging the directories of several arrays whose elements do not overlap and whose chunks have different names gives one array in which exactly the elements of all of them are read. Re-chunking an array with any number of jobs (each job rebuilding its share of the partitions into a directory of its own, the results being merged) gives an array made of chunks of the requested size and overlap that fills the original box without the padding, with the values of the original array shifted by the padding; the result does not depend on the number of jobs.", "quantifier": "all numbers of jobs, arrays, paddings, chunk sizes, overlaps, boundary evaluators and orders in which files are listed", "why_tests_cant": "The partition of the work depends on shape, chunk size and number of jobs in a search loop; a test sees a few combinations only, and never all splittings of the border chunks.", "anchors": ["eisvogel/meep/impl/MEEPCylindricalGreensFunctionCalculator.hxx: merge_mpi_chunks, get_partition_size, rechunk_mpi", "eisvogel/core/impl/DistributedNDVecArray.hxx: DistributedNDVecArray::Import, RebuildChunksPartial"]}
{"id": "C57", "title": "Every sample the simulation records is found in the array, at its time and downsampled position", "statement": "After T time steps in which the field of every region of a process is downsampled, cut into chunks and registered or appended, the array holds for every step t and every downsampled position k of every region exactly the sample of that region at position k times the downsampling factor in step t, and no other elements; chunks have at most the requested extent in time and in space. After the axes are exchanged and the array is moved to the output directory and closed, opening that directory gives the same samples with the time as last index.", "quantifier": "all numbers of steps, regions, shapes, downsampling factors, chunk sizes in time and space, field values and file names", "why_tests_cant": "Whether a slice is registered or appended, and to which chunk, depends on the interplay of the step counter, the chunk size in time, the spatial cutting and the downsampling of regions of any shape and offset.", "anchors": ["eisvogel/meep/impl/MEEPCylindricalGreensFunctionCalculator.hxx: eisvogel_cylindrical_saving_chunkloop, calculate_mpi_chunk", "eisvogel/core/impl/NDVecArrayOperations.hxx: downsample"]}
{"id": "C58", "title": "The field in the storage domain is collected from the simulation chunks completely and at the right place", "statement": "For any division of the grid into simulation chunks without common cells: the part of a chunk that is set aside for storage consists of exactly its cells inside the storage domain (so if the chunks cover the domain, every cell of the domain is in exactly one part); in every step the field buffer of a part holds the field MEEP computes at the centre of each of its cells, or zero where the value was truncated, whatever was in the buffer before; and the array that is saved has, for step t and downsampled position k, exactly the value of the cell at the start of the domain plus k times the downsampling factor, for all such cells in the domain that belong to this process, and nothing else. contains, overlaps and get_chunk_overlap are membership, non-empty intersection and intersection of non-empty boxes.", "quantifier": "all storage domains, divisions into simulation chunks, downsampling factors, chunk sizes, numbers of steps, field values and truncation decisions", "why_tests_cant": "The division into chunks is chosen by MEEP depending on the number of processes and the domain; chunks can lie inside, outside or across any border of the storage domain, and an index that is off by one only shows for some of these positions.", "anchors": ["eisvogel/core/impl/ChunkUtils.hh: contains, overlaps, get_chunk_overlap", "eisvogel/meep/impl/MEEPCylindricalGreensFunctionCalculator.hxx: get_cylindrical_chunk_start_ind, get_cylindrical_chunk_shape, eisvogel_setup_cylindrical_storage_chunkloop, eisvogel_cylindrical_saving_chunkloop, calculate_mpi_chunk"]}
{"id": "C60", "title": "A whole calculation leaves an array with exactly the field in the requested region, every d-th cell, every step", "statement": "For any division of the grid into simulation chunks and any distribution of these over the processes in which every cell belongs to exactly one chunk: a calculation (padding of the storage domain, recording in every process, merger of the directories, parallel re-chunking with removal of the padding) ends without a failed assertion; the output directory opens as an array of shape (samples in r, samples in z, steps) starting at zero, with chunks of at most the requested size and the requested overlap; the element at r, z, t is the field at the centre of cell (start_z + z*d, start_r + r*d) in step t (zero if it was truncated). In the overlap of the chunks the values go on into the padding, as far as that reaches; behind it they are zero, and before the first radius they are mirrored.", "quantifier": "all grids, storage domains, downsampling factors, overlaps, chunk sizes of both stages, numbers of processes, divisions into simulation chunks, numbers of steps, fields, truncation decisions, file names and cache iteration orders", "why_tests_cant": "The result depends on the interplay of MEEP's division, padding, downsampling, time slicing, merging, renumbering of chunks and the partition of the re-chunking among processes; an error in one of them shows only for particular combinations of sizes and job counts.", "anchors": ["eisvogel/meep/impl/MEEPCylindricalGreensFunctionCalculator.hxx: Calculate, calculate_mpi_chunk, merge_mpi_chunks, rechunk_mpi", "eisvogel/core/impl/DistributedNDVecArray.hxx: RebuildChunksPartial, Import"]}
{"id": "C61", "title": "Sampling the Green's function on a regular grid gives the interpolated field at every grid point", "statement": "fill_array(start, end, num_samples) resizes the given array to num_samples and, for a range inside the stored region with at least two samples per axis and chunks that overlap by more than the kernel support, stores at [i,j,k] the kernel-weighted sum of the stored samples around the position start + (i,j,k)/(num-1)*(end-start), for every sample, no matter how the chunks divide the region and which of them are all-null. (The code refutes this for a range that ends inside the first cell of a chunk: the end index is truncated and used as an exclusive bound, and these samples silently stay zero.)", "quantifier": "all divisions into chunks, ranges, numbers of samples, sampling intervals, kernels (linear, Keys), stored fields, answers of the index to the range query and arrays passed in", "why_tests_cant": "Which chunk writes which output sample follows from rounding quotients up and down per chunk; a sample that is written by no chunk, by the wrong one or beyond the array occurs only for particular positions of chunk boundaries relative to the sampling grid.", "anchors": ["eisvogel/core/impl/GreensFunction.hxx: fill_array, is_in_range, coords_to_index", "eisvogel/core/impl/Vector.hxx: ceil_nonneg, floor_nonneg", "eisvogel/core/impl/Interpolation.hxx"]}
{"id": "C59", "title": "The coordinates of a calculated Green's function are those where its samples were recorded", "statement": "After a calculation, start_coords/end_coords enclose the stored region, which is the requested one in whole cells, and the sample with index (i,j,k) has the coordinates start + (i,j,k)*interval; the value stored there is the simulated field at these coordinates. (The code assigns the first sample to the lower edge and the last to the upper edge of the region, although the field is recorded at the centres of every d-th cell: exact coordinates are refuted; the deviation is at most d - 1/2 cells along r and z and less than a time step in time. The stored region can end almost two cells before the requested one.)", "quantifier": "all geometries, requested regions, resolutions, downsampling factors, end times, time steps and steps of MEEP, and everything C60 ranges over", "why_tests_cant": "The deviation depends on the remainders of the region by the cell size, of the number of cells by the downsampling factor and of the end time by the time step; tests on a few regions that happen to be multiples show none of it.", "anchors": ["eisvogel/meep/impl/MEEPCylindricalGreensFunctionCalculator.hxx: calculate_mpi_chunk (storage domain, region_stored, main loop), Calculate (fourth stage)", "eisvogel/core/Geometry.hh: CylinderGeometry, CylinderRegion"]}
{"id": "C62", "title": "The analytic calculator leaves the given field sampled on a regular grid over the requested region", "statement": "ElectricDipole(start, end, t_end, ...) divides the requested region along each axis into as many equal steps as steps of the required size fit, and leaves a Green's function whose array has one sample more than steps along each axis, starts at the origin, is divided into chunks of at most the requested number of points with overlap 2, and returns for index (r, z, t) the value of the dipole field at start + index * step, the last sample lying exactly at the end of the region. In the overlap outside of the region the samples are zero, or mirrored at negative radius. (Refuted by the code: the step can be almost twice as large as required; the mirrored samples are wrong if the region does not begin at r = 0; a region smaller than one step divides by zero.)", "quantifier": "all regions, steps, numbers of points per chunk, field functions, file names, cache iteration orders and behaviours of the R*-tree's sorting", "why_tests_cant": "Where the chunk boundaries fall relative to the grid and which chunk holds which sample depends on sizes that are products of real-valued inputs; a shifted or missing sample at one chunk boundary is invisible in tests on a few regions.", "anchors": ["eisvogel/core/impl/AnalyticGreensFunctionCalculator.hxx: ElectricDipole, EvaluateElectricDipoleGreensFunction (evaluator)", "eisvogel/core/impl/DistributedNDVecArray.hxx: RegisterChunk, RebuildChunks", "eisvogel/core/impl/Symmetry.hxx: boundary_evaluator"]}
{"id": "C63", "title": "A Green's function read from its directory gives the signals and samples of the stored field", "statement": "A Green's function object opened on a directory, while its index remembers its last hit and its cache loads and evicts chunks, adds to the signal of a track exactly the direct sum over the track points (trapezoidal rule, only points not later than the signal sample) of the kernel-interpolated stored samples dotted with the current, at every signal sample; sampling it on a regular grid returns the kernel-interpolated stored samples. The chunks read may lie anywhere, in any state of the cache, all-null chunks contribute the zeros they stand for. In particular: what the analytic calculator writes, after closing and opening again, gives the signals of the sampled field for every track inside the region, and sampling on its own grid returns the field values, exactly.", "quantifier": "all histories of the library (creations, registrations, appends, imports, re-chunkings, reads, flushes, reopenings), all finite stored floats, tracks, signal samplings, block sizes of the two loops, grids, cache sizes and behaviours of the R*-tree's sorting", "why_tests_cant": "Whether a sample is taken from the right chunk depends on the history of the index and cache and on where the track crosses chunk boundaries; tests fix one history and a few tracks.", "anchors": ["eisvogel/core/impl/GreensFunction.hxx: CylindricalGreensFunction::apply_accumulate, accumulate_inner_product, fill_array", "eisvogel/core/impl/DistributedNDVecArray.hxx: ChunkIndex::GetChunk, GetChunks, ChunkCache::RetrieveChunk", "eisvogel/core/impl/AnalyticGreensFunctionCalculator.hxx: ElectricDipole"]}
{"id": "C64", "title": "The incomplete gamma function ends and is within its tolerance of the integral", "statement": "incomplete_gamma(n+1, z, tol) ends for every argument and returns a value close to the integral of x^n e^(-x) from z to infinity: where the series is used (z <= 1 or z < n+1) it is too large by at most tol*(n+1)/2 times the lower incomplete gamma function, where the continued fraction is used its relative error is at most tol.", "quantifier": "all natural orders n, all arguments z >= 0, all tolerances in (0,1]; real arithmetic, lgamma exact at the positive integers", "why_tests_cant": "Termination and the truncation error of a series or continued fraction depend on the argument; tests compare a few values with a table.", "anchors": ["eisvogel/core/impl/MathUtils.hxx: incomplete_gamma, incomplete_gamma_series_expansion, incomplete_gamma_continued_fraction", "eisvogel/core/MathUtils.hh: incomplete_gamma"]}
{"id": "C65", "title": "The analytic calculator evaluates the field of a point dipole with the filtered step as moment", "statement": "Outside the cut-off radius and away from the arrival of the front, the two components that the analytic calculator stores are those of the electric field derived from the Hertz vector of a point dipole on the axis whose moment is minus the filtered unit step, in a medium of the given index, up to 2/(4 pi eta^2 d^3) times tol (n+2). Before the front arrives they are exactly zero; both are even in the radius; on the axis the radial component is zero; inside the cut-off radius they are not a number. The filter is normalised: its pulse integrates to one, has its maximum at the given peaking time, and its coded derivative is the derivative. (A filter of order zero is accepted but gives a field that is zero everywhere.) What is read back from the directory that the calculator leaves, at every index of the grid, are these components at the coordinates of the index (rounded once to floats), and signals computed from the directory for tracks that keep away from the cut-off radius are the sums over the track of these samples, interpolated.", "quantifier": "all times, positions, positive orders, peaking times and indices; real arithmetic, lgamma exact at the positive integers", "why_tests_cant": "Whether closed-form near, intermediate and far field terms add up to a solution of Maxwell's equations is a statement about derivatives at every point; tests can only compare values.", "anchors": ["eisvogel/core/impl/AnalyticGreensFunctionCalculator.hxx: ElectricDipole (filtered_theta, filtered_delta, filtered_delta_prime, E_r, E_theta, E_rxy, E_z)", "eisvogel/core/impl/GreensFunction.hxx: apply_accumulate"]}
{"id": "C66", "title": "The analytic calculator samples at the bandwidth of its filter", "statement": "The maximal frequency from which the analytic calculator derives its steps is the half-power frequency of the filter: the squared modulus of the Fourier transform of the filter's impulse response is 1/2 there, larger below and smaller above. With oversampling factor os the requested time step is 1/(2 os) of that frequency's period, the requested step in space 1/(2 os) of its wave length in the medium, and a wave moves one step in space during one step in time. (A filter of order zero or an oversampling factor of zero leads to a division by zero.)", "quantifier": "all positive orders, peaking times, indices of refraction and oversampling factors; real arithmetic", "why_tests_cant": "That a closed formula is the half-power frequency is a statement about an integral over all times, for every order.", "anchors": ["eisvogel/core/impl/AnalyticGreensFunctionCalculator.hxx: ElectricDipole (fmax, lambda_min, delta_t, delta_pos)"]}
{"id": "C67", "title": "The tracks of a shower follow its axis and its profile", "statement": "A shower is turned into tracks that begin at its vertex, lie one after the other on the straight line given by zenith and azimuth, each begins where and when the one before ends, and on each the charge moves for one time step at the speed of light. Their number is the number of steps until the matter passed (density at the beginning of each step times its length) reaches the end of the profile, in ice its length over the matter per step rounded up. The charge of a track is the profile's, linearly interpolated at the depth where the track begins and scaled with the energy - except that of the first track, which is not scaled. The printed dimensions contain all points in steps of 1 ns and every limit is attained, except that the largest radius can be the distance of the vertex from the origin, and with smaller steps the tracks can leave the printed region. Without a profile, with a profile that ends at depth zero or a step that is not positive the behaviour is undefined.", "quantifier": "all showers (positions, directions, profiles, scalings), densities and time steps; real arithmetic", "why_tests_cant": "The number of steps, the interpolation and the accumulated depth depend on the whole profile and density function.", "anchors": ["extern/shower_profile/shower_1D/shower_1D.cpp: get_shower, fill_tracks, print_dimensions", "extern/shower_profile/charge_excess_profile/charge_excess_profile.cpp: interpolate", "extern/shower_profile/environment/ice_profile.cpp: get_density"]}
{"id": "C68", "title": "The shower library returns the stored profile of the closest energy", "statement": "From a file of profiles (entries of number of points, type, energy, depths and charges) the shower creator files every profile under its type and energy in the order of the file, every energy once. Creating a shower with an index takes the energy of that type with the smallest distance to the requested one and the profile of that index, and scales it with the ratio of the energies. (The constructor also registers one more, empty profile under whatever type and energy its variables happen to hold at the end of the file; with the default index, which should choose at random, the behaviour is undefined.)", "quantifier": "all files of well-formed entries, types, energies and indices", "why_tests_cant": "It must hold for every sequence of entries and every requested energy; the extra entry depends on uninitialised memory.", "anchors": ["extern/shower_profile/shower_creator/shower_creator.cpp: ShowerCreator, create_shower", "extern/shower_profile/convert_shower_profile.py: write_shower"]}
{"id": "C69", "title": "Signals superpose, through all callers", "statement": "SignalCalculator adds to the signal of a track the integral over the track with the cubic kernel, and fails outside of the Green's function; the CORSIKA interface adds the one with the linear kernel times the weight and ignores what is outside. The signal of several tracks is the sum of the signals of the tracks, in whatever order they are added. The shower example computes twice the sum of the signals of the shower's tracks (its loop is done twice). Through the Green's function that the analytic calculator has stored this holds for all tracks in the region, and for all showers whose tracks are.", "quantifier": "all lists of tracks, signals, weights, Green's functions with samples and overlap; real arithmetic of the sums", "why_tests_cant": "It is about all lists of tracks and all states of the cache that earlier tracks leave behind.", "anchors": ["eisvogel/core/impl/SignalCalculator.hxx: AccumulateSignal", "extern/corsika/impl/C8SignalCalculator.hxx: calculate", "examples/shower_profile/02calculate_shower_emission.cpp: main", "eisvogel/core/impl/GreensFunction.hxx: apply_accumulate"]}
{"id": "C70", "title": "From the simulation to the signal: what the MEEP calculator stores is what tracks see", "statement": "The calculation of a Green's function with MEEP, whatever cells and time steps its simulation has, however these are distributed over processes, chunks and files, leaves a directory with the coordinates of the storage region; opening it and accumulating the signal of one or several tracks, or of a whole shower, inside of these coordinates gives the sum over the steps of the tracks of the current times the field interpolated, with the kernel, between the samples that were kept of the simulated field (the field in every d-th cell and at the stored steps, or zero where it was truncated; on the other side of the axis the same samples; zero at all other indices). No assertion fails and nothing is thrown.", "quantifier": "all simulated fields without infinities and NaNs, geometries, requested regions, distributions over processes and chunks, downsamplings, overlaps, chunk sizes, truncations; all tracks and showers inside of the region whose cells are not null; real arithmetic of coordinates and sums, exact float values of the samples", "why_tests_cant": "It composes recording, storage, merging, downsampling, padding, re-chunking, transposition, reading and interpolation; every one of these cuts the same data differently.", "anchors": ["eisvogel/meep/impl/MEEPCylindricalGreensFunctionCalculator.hxx: Calculate", "eisvogel/core/impl/GreensFunction.hxx: CylindricalGreensFunction, apply_accumulate, accumulate_inner_product", "eisvogel/core/impl/SignalCalculator.hxx: AccumulateSignal", "examples/shower_profile/02calculate_shower_emission.cpp: main"]}
{"id": "C71", "title": "The antenna's current and the coordinates given to the simulation", "statement": "During its window, start and end included, the antenna feeds the negative of the impulse response at the float nearest to the time, times the scale (0.11 times the resolution in a calculation), to the nearest float; at other times, and at times that are no numbers, it feeds nothing, as soon as there is a float between the time and the window (a time that only rounds into the window still counts: refuted that the current is zero immediately after the end). The source is 1.5 cells from the axis at the antenna's height. Converting a point to MEEP coordinates and back gives the same radius, and the same height up to two roundings, exactly if the heights are multiples of a power of two and not too many (in general not: refuted); every point of the geometry lies in the simulated volume, and the permittivity is evaluated at the converted point.", "quantifier": "all times (64-bit floats, infinities and NaN too), windows, responses, scales, resolutions between 2^-100 and 2^100, coordinates up to 2^125", "why_tests_cant": "Rounding between double and float at the edges of the window and for each bottom of the geometry.", "anchors": ["eisvogel/core/impl/Antenna.hxx: current, last_time, AddToGeometry", "eisvogel/core/impl/Geometry.hxx: toMeepCoords, toEisvogelCoords, eps", "extern/corsika/impl/C8GreensFunctionCalculator.hxx: calculate", "eisvogel/meep/impl/MEEPCylindricalGreensFunctionCalculator.hxx: calculate_mpi_chunk (scale factor, volume)"]}
{"id": "C72", "title": "Region, times and steps of a calculation in floating-point arithmetic", "statement": "The check for whole numbers accepts a float exactly if it is an integer, and a geometry with exactly n cells along an axis passes the check and the assertion. Then the first cell and the number of cells that are stored are the whole cells of the request, up to an error of n/2^21 cells, inside the geometry; for requests at cell boundaries each is exact or one less (it can be one less: refuted that it is always exact), and the check also accepts sizes that are not whole (refuted). The k-th slice is stored for k timesteps up to rounding (k^2 timestep / 2^53), there is a slice at time zero, none is after the end, and none further from the end than an eighth of a timestep is missing; the one at the end can be missing, and then the stored time step is wrong (refuted). Every slice holds the field of the first step of MEEP that is not before its time; with a slice for every step, slice k holds step k or k+1 (and not always k: refuted). The stored edges and steps are those of the formulas up to rounding.", "quantifier": "all geometries and regions with coordinates up to 2^100 (32-bit floats), fewer than 2^20 cells per axis, all resolutions and timesteps (64-bit floats) up to 2^24 slices, every clock of the simulation", "why_tests_cant": "Depends on the rounding of each particular size, resolution and timestep, and on errors that accumulate over the steps.", "anchors": ["eisvogel/meep/impl/MEEPCylindricalGreensFunctionCalculator.hxx: calculate_mpi_chunk (checks, storage domain, region_stored, main loop), Calculate (step_size)", "eisvogel/core/impl/MathUtils.hh: is_integer"]}
{"id": "C73", "title": "An exported signal can be read back", "statement": "Reading the exported text as comma-separated decimal numbers, one line per sample, gives exactly one row per time, in the same order; the first number is the time to within half of the last decimal that was asked for, the second the value to within half a unit of the last of its value_prec + 1 significant digits. With at least 8 decimals (the default is 15) the float nearest to the second number is the value that was exported. Times further apart than the last decimal stay apart and in order; closer ones (default: 3 decimals) can be written alike (refuted that times can be recovered). If there are fewer values than times, values are read outside their bounds (refuted that this is reported).", "quantifier": "all finite 32-bit values and times, of any number, all precisions", "why_tests_cant": "Rounding to decimals and back must work for each of the floats and each precision.", "anchors": ["eisvogel/core/impl/SignalExport.hxx: ExportSignal", "eisvogel/core/SignalExport.hh (default precisions)"]}
{"id": "C74", "title": "Rounding of the interpolation", "statement": "With 32-bit floats, interpolating an array whose values are at most M (and M at most 2^100) at positions whose stencils lie inside the array never reads outside, and each result is a number (not NaN or infinite) within M / 2^16 + 2^-140 of the exact cubic (Keys) interpolation of the stored values at these positions, with linear interpolation within M / 2^20 + 2^-140. At the position of a sample the result is exactly the sample, for both kernels. The weights differ from the exact ones by at most 21 (Keys) and 1 (linear) times 2^-24. The position of sample s differs from start + s delta by at most (|start| + 3 |s delta|) 2^-24 + 2^-140.", "quantifier": "all arrays of finite 32-bit floats up to 2^100, all positions below 2^24 with room for the stencil, all numbers of samples and of components", "why_tests_cant": "The bound must hold for all data and all fractional positions, of which there are far too many.", "anchors": ["eisvogel/core/impl/Interpolation.hxx: Linear::kern, Keys::kern, interpolate_1d, interpolate"]}
{"id": "C75", "title": "Times of the signal calculation in floating point", "statement": "The signal of a track, calculated with 32-bit floats, has in each sample exactly the contributions of those integration points of the track that are not later than the sample, in the order of the points, each evaluated at the time since the point and with the weight of the trapezoidal rule; the calculation does not stop because of the rounding of a time. Of a chunk of the Green's function exactly the samples are taken that lie before the end of the chunk. For times that are not on a grid the choice of the first sample and the time since the point are correct up to a few units in the last place of the largest time involved.", "quantifier": "all tracks, start times, sampling steps, numbers of samples, block sizes and Green's functions, with times rounded to 32-bit floats", "why_tests_cant": "Whether a quotient of rounded times falls on the right side of an integer depends on every bit of the times; the interesting cases are rare.", "anchors": ["eisvogel/core/impl/GreensFunction.hxx: apply_accumulate, accumulate_inner_product", "eisvogel/core/Quadrature.hh: TrapezoidalRule::fill_weights"]}
{"id": "C76", "title": "Rounding of the contributions to the signal", "statement": "With 32-bit floats, every value of the Green's function that a point of a track contributes to a sample of the signal is the exact interpolation of the stored values at a position within a few units in the last place of the largest index involved (chunk size, radial, vertical and time index) of the exact position of the point at the time of the sample, up to the error of the interpolation itself; whichever chunks the samples are read from, every sample of the requested range gets exactly one contribution and no other sample is changed. The whole signal of a track is the one of its points: each sample gets one contribution of every point that is not later (up to the error of the times), with the position, the weight and the current of the exact point up to stated errors. So each sample is its old value plus the sum of the exact contributions, up to an error proportional to the number of points.", "quantifier": "all chunk layouts, stored values, positions, start times, sampling steps, numbers of samples and both interpolation kernels, with coordinates rounded to 32-bit floats", "why_tests_cant": "The positions in the chunks are calculated differently for every chunk boundary; a rounding to the other side of a grid node changes which stored values are used.", "anchors": ["eisvogel/core/impl/GreensFunction.hxx: accumulate_inner_product, to_chunk_local_ind", "eisvogel/core/impl/Interpolation.hxx: interpolate", "eisvogel/core/impl/GreensFunction.hxx: apply_accumulate", "eisvogel/core/impl/GreensFunction.hxx: coord_cart_to_cyl, field_cart_to_cyl"]}
{"id": "C77", "title": "Tabulated profiles of the dipole application", "statement": "The permittivity that the dipole application derives from a table of heights and indices of refraction is, at every height in the range of the table, the square of the function that is linear between neighbouring rows and has the tabulated values at the rows; it does not depend on the order of the rows in the file, and lies between the squares of the tabulated values. The impulse response is linear between the rows of its table and zero before 0 and after the last row. Outside of the range of the heights an exception is thrown. A column of a table is read completely and in order.", "quantifier": "all tables (any number and order of rows), all heights and times, all results that std::sort may have, all texts of tables", "why_tests_cant": "Tables of any size and order; the result of sorting is not unique, and evaluation near every row matters.", "anchors": ["applications/dipole/dipole.cxx: lin_interp, reorder_vector, main", "tests/test_utils/CSVReader.hxx: CSVRow::parse_row, CSVReader::read_column"]}
{"id": "C78", "title": "The ice and the antenna of the dipole_ice example", "statement": "In the dipole_ice example the permittivity is 1 above the surface, lies between the squares of the indices of refraction of the snow at the surface and of compact ice below it, and grows with depth. The impulse response of the antenna is zero up to time 0, never negative, largest at its peaking time, has integral 1, and is the same filter that the analytic calculator uses for the same order and peaking time.", "quantifier": "all heights and radii, all times, all orders and peaking times of the filter", "why_tests_cant": "Holds on a continuum of heights and times and for an improper integral; a jump between two layers is easily missed by sampling.", "anchors": ["examples/dipole_ice/dipole_ice.cxx: main (eps, impulse_response)"]}
{"id": "C79", "title": "The trajectory of the moving point charge", "statement": "The loop that cuts the trajectory of a moving charge into line segments (point_charge_askaryan and the Askaryan test) always ends. The segments join up exactly: each one starts at the very position and time at which the one before ends, the first one starts at the first time, and the last one is the first that reaches the last time; each has the charge of its first time. For whole times up to 2^24 and steps of one there is exactly one segment per step (500 in the example) and the positions are the correctly rounded products of velocity and time. If the step is lost in rounding, the constructor of the segment throws instead of looping forever.", "quantifier": "all floating-point start and end times, steps, velocities, heights and charges", "why_tests_cant": "Accumulated floating-point times depend on every input; termination and the absence of gaps must hold for all of them.", "anchors": ["examples/point_charge_askaryan/point_charge_askaryan.cxx: main", "tests/physics/testAskaryan.cxx: calculate_signal_eisvogel", "eisvogel/core/impl/Current.hxx: LineCurrentSegment"]}
{"id": "C80", "title": "The sample times of the shower example", "statement": "The shower example evaluates the signal at about (end - start) / step samples (the quotient rounded down, up to the rounding of the quotient): sample i is at start + i step up to the rounding of one product and one sum, so errors do not accumulate, the times never go back, and they are all different if the step is larger than the rounding of the last time. With the constants of the example there are exactly 1250 samples.", "quantifier": "all finite floating-point start and end times and steps of ordinary size with at most 2^23 steps", "why_tests_cant": "The number of samples is a truncated floating-point quotient and depends on every input bit.", "anchors": ["examples/shower_profile/02calculate_shower_emission.cpp: main"]}

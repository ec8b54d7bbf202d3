# Formal model of eisvogel-project/Eisvogel in Rocq (Coq 8.16.1)

## 1. Approach

The C++ core of Eisvogel (`/repo/eisvogel/core`) is a stack of pure algorithms (index loops, codecs, interpolation,
downsampling) and state machines (LRU cache, memory pool, R*-tree, chunk cache with files, chunk index, chunk library,
distributed array).  Each is written as total, computable Gallina functions; each property of `properties.jsonl` is one or
more theorems about these functions, quantified over all inputs and histories.

Conventions

* `size_t` is `N` with arithmetic modulo 2^64 (`wadd`, `wsub`, `wmul` in BBoxModel) wherever the code's wrap-around can be
  observed (boxes, shapes, overlap offsets, downsampling, ids); elsewhere `nat`.
* C++ exceptions, failed `assert`s, undefined behaviour (out-of-bounds access, null dereference, invalid slot, signed overflow)
  and non-termination are outcomes of the model (`None`, or `Raised`/`Undef` of `res`); no such case is given a default value.
  A theorem `... = Some x` / `= Done x` therefore also says that none of them happens.
* Float data are bit patterns in the storage part (codecs, arrays, chunk store, library, rebuild: round trips are about bits;
  negative zero may come back as zero where null suppression says so, `comes_back`).  Numerical laws (kernels, interpolation,
  quadrature, signals, statistics) are over the real numbers: rounding is not modelled, except in C39, C71-C77 and where a claim says so (Flocq binary32).
* The file system is a pair (index file, finite map from file names to bytes) per directory.
* Library calls of C++ with unspecified results are parameters: `std::sort`/`std::partial_sort` (`lib`, with `lib_ok`: the
  result is a permutation, the partial sort puts the smallest in front), iteration orders of unordered maps and directories
  (`ord`, `dord`, any permutation), uuids (any names that differ), uninitialised memory (`junk`).

Files under `rocq/theories`: `*Model.v` (definitions only, each citing the modelled lines), `*Spec.v` (what is needed to read
the statements, independent of the model's helpers), `*Proofs*.v` (lemmas), `*Props.v` (the theorems `Cxx_...`, with
`Example`s that show that a non-trivial case meets the hypotheses, and `Print Assumptions`).
`Cxx_..._refuted` are proved counterexamples: the English property is false of the code there.

## 2. What is modelled for each property, and how it is proved

| Prop | Modelled (file) | Proof method |
|---|---|---|
| C01 | NDVecArray addressing, strides, views (NDArrayModel) | induction on dimensions: mixed-radix numbering is a bijection |
| C02, C03 | IteratorUtils loops with carry, chunk loops (LoopsModel) | the loop is the lexicographic enumeration of the box; wrap-around version for C03 |
| C04-C07 | Append, SwapAxes, fill_from, copy, assignment (NDArrayModel) | reading lemmas through C01; C07 refuted for views |
| C08, C09 | Serialization.hh codecs (CodecModel) | round trip with arbitrary suffix; induction over the nestings |
| C10, C11 | null suppression (NullSupModel) | induction over the run-length automaton |
| C12, C13 | NDVecArrayStreamer (StreamerModel) | composition of C03 and C10; C13 refuted for pieces smaller than a serialisation chunk |
| C14, C15 | Cache.hh: slots, links and map (CacheModel) | refinement to a map with timestamps |
| C16 | MemoryPool (PoolModel) | representation invariant over histories |
| C17 | BoundingBox (BBoxModel) | arithmetic mod 2^64 |
| C18-C23, C51 | RStarTree with slot indices, forced reinsertion, splits, STR rebuild (RTreeModel); C51 also for the chunked array after any lookups | representation invariant over histories, for any sort functions; C27, C30, C52 before and after the lookups (ArrayReadsProps) |
| C24, C25, C28 | ChunkCache + files (ChunkCacheModel) | refinement to a map id -> contents (ChunkCacheSpec), any cache size |
| C26, C27, C29-C31, C52, C53 | ChunkIndex + ChunkLibrary + DistributedNDVecArray (LibraryModel) | invariant over all sessions (LibrarySpec: `session`), refinement to a list of boxes with contents |
| C32 | metadata codecs (ChunkMetaModel) | round trip |
| C33, C34 | RebuildChunksPartial, RebuildChunks (RebuildModel; with the evaluator that gets the array, RebuildWholeModel) | loop lemmas + C27 + boundary rule; C34 refuted; the second variant is compared with the first one for the evaluator that only looks at the index (RebuildWhole) |
| C35 | lists of file operations of every library operation and of RebuildChunks (CrashModel) | replaying them gives the model's files; invariant for every prefix and torn operation; refuted for flush, move, import by move; appending in place: CrashAppendModel, every file operation leaves each flushed file complete and at least as long (CrashAppendProofs to 3, CrashAppendProps), refuted inside one file |
| C36, C37 | downsampling arithmetic (DownsampleModel) | multiples in an interval, mod 2^64 |
| C38 | field statistics tracker, truncation (FieldStatsModel) | fold over the history |
| C39 | job partition (PartitionModel) | Flocq binary32 |
| C40-C44 | quadrature, kernels, interpolation, accumulate/apply (KernelModel, InterpModel, SignalModel) | algebra over R; induction over blocks; C44 refuted |
| C45, C46 | boundary evaluator, chunk-local indices (BoundaryModel, ChunkMetaModel) | case analysis; mod 2^64 |
| C47-C49 | IntDivCeil, validation of inputs, mixed-sign min/max (DownsampleModel, ValidationModel) | arithmetic |
| C50 | NumPy header (NumpyModel) | arithmetic and parsing of the produced header |
| C54 | SwapAxes of the library and of the distributed array (LibraryModel) | as C26; part of `session` |
| C55 | files in the directory of an array (ChunkCacheModel, LibraryModel) | invariant over `session`: every file belongs to a chunk, every cached entry to a chunk (LibraryFiles) |
| C56 | merge_mpi_chunks, get_partition_size, rechunk_mpi of the MEEP calculator over lists of directories (ParallelModel) | merging: induction over the directories with the import theorem; re-chunking: partitions nested in chunks (C39), each partial rebuild as in C33, then merging (ParallelProofs, 2, 3) |
| C57 | the storing part of eisvogel_cylindrical_saving_chunkloop and calculate_mpi_chunk (RecordModel) on top of downsampling (C36), fill (C06), register/append (C26, C29), swap (C54), move and close (C53) | invariant over cells, regions and steps: each cell has one chunk per epoch of `calc_chunk_size_t` steps (RecordProofs, 2, 3) |
| C58 | ChunkUtils.hh and the two MEEP callbacks (StorageModel): set-up of the stored portions, filling and truncating the field buffer, then RecordModel | per-axis interval arithmetic for the portions; the buffer by a fold over the grid points; simulation: saving is recording (C57) of the kept portions with canonical buffers (StorageProofs, 2, 3) |
| C59 | storage domain, region_stored, main loop and fourth stage of Calculate (CoordsModel) around CalculateModel | truncation and interval arithmetic per axis over R, induction over the main loop, composition with C60 (CoordsProps) |
| C60 | Calculate from the storage domain to the final array (CalculateModel), on top of StorageModel and ParallelModel | arithmetic of padding and sample counts per axis; C58 for every process, C56 for merger and re-chunking; the value in the result is traced back through shift, overlap and the cylindrical boundary rule (CalculateProofs, 2) |
| C61 | CylindricalGreensFunction::fill_array (FillModel) with the interpolation of SignalModel and the range query of the index as specified by C19 | which samples a chunk writes, per axis, from ceil/floor; fold over columns and chunks with an invariant on the written samples (FillProofs, 2); completeness by locating the cell of every sample |
| C62 | Analytic::ElectricDipole (AnalyticModel): step sizes, loop over chunks, evaluation, registration, re-chunking with overlap 2; the field is any function | invariant over the chunk loop (AnalyticProofs), then C33 with the cylindrical rule; truncation over R (AnalyticProps) |
| C63 | apply_accumulate, accumulate_inner_product and fill_array on the library object itself (ReadModel; index and cache change while reading; stored bits are binary32 numbers) | simulation: the object behaves as the functional index and cache of SignalModel/FillModel (ReadProofs, 2), then C43/C44/C61; with C62 from the analytic calculator to the signal (ReadAnalytic) |
| C64 | MathUtils.hxx (GammaModel): series and continued fraction as loops with fuel; the integral is Coquelicot's is_RInt_gen (GammaSpec) | series: terms and geometric tail of the lower function; fraction: convergents in closed form by induction, alternating enclosure and monotone error (GammaProofs, 2) |
| C65 | the field functions in ElectricDipole (DipoleModel), specified by a Hertz vector (DipoleSpec) | derivatives of the retarded moment, C64 for the filtered step (DipoleProofs); StoredModel/Spec/Props and StoredSignal: with C62 and C63 to the stored elements and to signals |
| C66 | fmax, delta_t, delta_pos (SamplingModel); the spectrum is an improper integral (SamplingSpec) | antiderivative of t^n exp(-(w - i o) t) by recursion, its limit and modulus (SamplingProofs) |
| C67 | shower_1D, charge_excess_profile, ice_profile (ShowerModel) in real arithmetic; ShowerSpec has the axis, points, depth and interpolated charge in closed form | induction over the two loops (counting, filling) with the depth as invariant (ShowerProofs) |
| C68 | the constructor's parsing loop over bytes, the two maps as functions, create_shower (CreatorModel); file format from the python converter (CreatorSpec) | induction over the entries; the closest energy by a fold invariant (CreatorProps) |
| C69 | AccumulateSignal, C8SignalCalculator::calculate, the track loop of the example (EmissionModel) over the reading of C63 | C63_signal per track, induction over the list, the session invariant of the cache carries over (EmissionProps); with C62 (EmissionAnalytic) |
| C70 | calculate_green (C59, C60) followed by lib_open and apply_accumulate_on (C63, C69); MeepSpec has the samples as a function of the index and the conditions on the tracks | the chunks of C60 give the samples of C63 (has_samples); every needed delay is in a chunk that is not null (MeepProps) |
| C71 | Antenna, the coordinate conversions of CylinderGeometry, the scale factor and the wrapper for CORSIKA (AntennaModel), with Flocq's binary32 and binary64; AntennaSpec says what nearest means | monotonicity and error bounds of rounding (AntennaProps) |
| C72 | is_integer, the storage domain, region_stored, main loop and step_size of the calculation with Flocq's binary32 and binary64 (DiscreteModel); DiscreteSpec counts in cells over the reals | error bounds through each operation (DiscreteProps); the accumulated time by an invariant over the loop (DiscreteTimes) |
| C73 | ExportSignal with the fixed and scientific formats (ExportModel); ExportSpec reads the file again | digits and exponent by induction, error of rounding to decimals, floats with the same 9 digits are equal (ExportProps) |
| C74 | the kernels and interpolate in binary32, with the operations in doubles that the literals cause (Interp32Model); Interp32Spec has the exact weights and interpolation | errors of single operations, then of sums of products by induction (Interp32Weights, Interp32Proofs, Interp32Props), exact at nodes (Interp32Nodes) |
| C75 | apply_accumulate and accumulate_inner_product in binary32 (Signal32Model); Signal32Spec has grids of times and the times of samples and points | exactness on a grid of powers of two, ceilings and floors of rounded quotients (Signal32Props, Signal32Error), loop structure by induction (Signal32Whole, Signal32Signal); refuted in general by concrete times |
| C76 | accumulate_inner_product, to_chunk_local_ind and interpolate in binary32 (Signal32Model, Interp32Model); Chunk32Spec has the Green's function on the grid of indices, its exact interpolation and chunks that hold its values | errors of the indices (Chunk32Contrib), the position in the chunk is the index shifted by an integer up to one rounding (Chunk32Props), C74 for the values, induction over the turns of the loop (Chunk32Loop); for the whole track, induction over the blocks of points and of samples (Chunk32Whole, Chunk32Signal); relative errors of the coordinates, weights and currents of the points (Track32Props), and the whole signal at the exact points of the track (Track32Signal); the size of interpolated values, the rounding of the products and of the sums (Sample32Props) |
| C77 | lin_interp, reorder_vector, std::sort as any sorting permutation, the permittivity and the impulse response of applications/dipole/dipole.cxx, and CSVReader (TableModel); TableSpec has the function that is linear between the rows of a table, and the text of a table | induction over the sorted rows; uniqueness of the neighbouring rows (TableProps); induction over the rows of the text (TableRead); lin_interp in binary32 (TableFloatModel), its assertions by monotonicity of rounding and its error by the relative errors of the operations (TableFloat); the permittivity and the impulse response in floats, where the square of a float is exact in doubles (TableFloatProfiles) |
| C78 | the permittivity and the impulse response of examples/dipole_ice/dipole_ice.cxx over the reals (IceModel); DipoleSpec has the filter of the analytic calculator | monotonicity of exp; s <= exp(s - 1) for the peak; the limit of the incomplete gamma function for the integral (IceProps) |
| C79 | the loop over the times of examples/point_charge_askaryan and the constructor of LineCurrentSegment in binary32 (ChargeModel) | induction over the rounds; termination because floats are multiples of 2^-149 and the constructor throws unless the time grows; exact sums of whole numbers (ChargeProps) |
| C80 | the computation of the sample times of examples/shower_profile/02calculate_shower_emission.cpp:45-55 in binary32 (TimesModel) | error of each rounding, truncation to size_t, monotonicity of rounding (TimesProps) |

MANIFEST.json gives the status, theorem names and restrictions of each.

## 3. Trusted base

* Coq 8.16.1's kernel including `vm_compute`; no axioms, functors, plugins or disabled checks of our own.
* `Print Assumptions` (in the `*Props.v` files): every theorem is closed under the global context, except
  * C77_* (C77_read, C77_blank_line_refuted and C77_header_refuted use none), C40_*, the other C59_*, C62_*, C43_overlap_equal_to_support_refuted, C46_local_coordinate_exact, C68_random_refuted:
    `ClassicalDedekindReals.sig_forall_dec`, `FunctionalExtensionality.functional_extensionality_dep`;
  * C38_*, C41_*, C42_*, the other C43_*, C44_*, C61_*, C67_*: these two and `ClassicalDedekindReals.sig_not_dec`;
  * C39_*, C56_rechunk, C56_rechunked_element, C59_green_function_partial, C60_*, C63_*, C64_*, C65_*, C66_*, the other C68_*, C69_*, C70_*, C71_*, C72_*, C73_* (C73_missing_values_refuted uses none, C73_fixed and C73_times_ordered the first two only), C74_*, C75_*, C76_*: these three and `Classical_Prop.classic` (through Flocq).

  All of them are axioms of Coq's standard library (real numbers).
* Definitions of Flocq (binary32 numbers and their bits, rounding) are used in the statements of C39, C63, C65, C68, C69, C70, C71, C72, C73, C74, C75 and C76; definitions of Coquelicot
  (is_derive, Derive, RInt, is_RInt_gen, is_lim) in those of C64, C65 and C66.
* C64 and C65 assume of `std::lgamma` that it is ln (n!) at n+1.
* C73 has std::fixed and std::scientific as printf's formats with correct rounding.
* Where a theorem is about floating-point numbers, every operation is rounded on its own, to nearest, as IEEE 754 demands.  The
  project's CMakeLists.txt passes `-ffast-math`, which allows a compiler to deviate from this; these theorems then describe the
  program as written, not necessarily the binary.
* The correspondence between model and code is by reading; nothing was compiled or run.  Every definition cites its lines.

### Assumptions that the statements make about the environment

* `lib_ok`: `std::sort` permutes, `std::partial_sort` permutes and puts the smallest in front (by the code's comparator).
* Directories involved in one operation are different; names (uuids) drawn by the code differ from the names in use.
* Reading a file that ends early is `Undef` (the code does not check the stream).
* Crash model: what has been written is on the disk; removal of one file is atomic; a file opened for writing is truncated
  first and then contains a prefix; a file changed in place may contain anything; rename, or copy and remove.
* Single thread; no other process works in the directories.

## 4. Not modelled

* Rounding (except where the theorem is about floating-point numbers: C39, C63, C65, C68 to C77, C79, C80); `meep` itself (its grid iteration is a list of visited points); SLURM/MPI plumbing; Python bindings; plotting and test code.
* The overloads of RebuildChunks without overlap, which do not compile when instantiated (see below).
* RebuildIndex (STR) inside the library is modelled for the tree only (C23).
* Sparse output formats, `NDVecArray` SIMD-layout details (only the addressing is modelled), timing and logging.

## 5. Findings: where the code deviates from what a user would expect

Each is a theorem `_refuted`, or a hypothesis of a `_partial` theorem.

* Copying a view (C07) copies the parent's buffer with the view's shape.
* Streaming append of pieces smaller than a serialisation chunk is accepted and corrupts the file (C13); `AUTOMATIC` mode
  throws only after the header was written (C12).
* `overlaps` for empty boxes (C17); point lookup in overlapping boxes depends on earlier lookups (C51); lookups, updates and
  rebuilds of an empty tree are undefined (C18, C23); the sign of a stored zero is lost once its chunk leaves the cache, so it depends on earlier lookups (C51).
* Chunk store: a second append along another axis, appends along other axes than the first while cached, default-constructed
  chunk metadata (C24); all-null chunks with overlap are read out of bounds once they leave the cache (C28, C27).
* Ids: the counter is 32 bits wide and is not restored when an index is loaded, so a reopened array hands out ids in use, and
  reads return the other chunk (C26).
* AppendSlice: no chunk at the start -> null pointer; a start inside a chunk is accepted; other axes (C29).
* `shape` overflows for hulls with 2^64 or more indices (C30).
* RebuildChunks runs over [0, shape): arrays with gaps become empty, arrays not starting at the origin lose elements (C34); in
  RebuildChunksPartial, gaps receive stale buffer contents; the overloads without overlap pass a lambda without arguments and
  hit a `static_assert`.
* Crashes during flush, move and import by move can make all data unreadable, and so can a crash between SwapAxes and the next flush (C35).
* An append to a chunk file overwrites the header with the new shape before the data are there: a crash in between makes a chunk unreadable that had been flushed long before (C35_append_refuted).
* RemoveChunk never deletes the file of a chunk; `uuid_string[36]` is written beyond its end by `uuid_unparse`.
* Downsampling an empty region at the origin (C36); degenerate quadrature ranges write outside the buffer (C40); the cubic
  kernel returns zero at the lower boundary (C42); an overlap equal to the kernel support reads beyond the array (C43);
  a null chunk before a specified one shifts all later samples of the signal (C44); boundary corners receive stale data (C45).
* Sampling on a grid: if the range ends inside the first cell of a chunk, the samples there silently stay zero; a single sample
  along an axis divides by zero (C61).
* Coordinates: samples recorded at cell centres are assigned to positions from the lower to the upper edge of the region, so every
  coordinate is off by up to d - 1/2 cells; the stored region can end almost two cells before the requested one; a region with a
  single sample along an axis divides by zero (C59).
* Analytic calculator: the step can be almost twice the required one; a region that does not begin at r = 0 gets mirrored samples
  in front that are not the field there; a region smaller than a step divides by zero (C62);
  a filter of order zero gives a field that is zero everywhere (C65) and infinite steps (C66).
* Showers: the charge of the first track is not scaled with the energy (shower_1D.cpp:64); a profile without points or that ends at depth
  zero reads outside of a vector; print_dimensions takes the vertex's distance from the origin for a radius (126), and the region that it
  prints can be too small for tracks in smaller steps (C67).  ShowerCreator registers one more empty profile under an uninitialised
  type and energy; create_shower draws a random index but uses the argument instead, -1 by default (C68).  The shower example
  accumulates all tracks twice (02calculate_shower_emission.cpp:60) (C69).
* The antenna's current also flows at times that round to the end of its window; heights change slightly when converted to MEEP's
  coordinates and back (C71).
* Rounding in the set-up of a calculation (C72): a request that begins at a cell boundary can be stored from one cell before (for example at
  cell 1 of 41); the check for whole numbers of cells converts to float and lets 0.1f * 10 pass, which then fails an assertion; adding up
  the timesteps can lose the last slice (resolution 9, end time 1), and as the end of the stored region stays, every stored time is then off
  by up to a timestep; a slice can hold the field of the following step of MEEP.
* The signal calculation stops with a failed assertion for ordinary times: the first sample that a point contributes to is rounded up from a quotient, and its
  time, calculated again, can be just before the point (a track from 6.3, samples every 0.7 from 0; GreensFunction.hxx:326); in the same way the last sample
  taken from a chunk can be just behind its end (GreensFunction.hxx:399) (C75).
* ExportSignal writes times with three decimals by default, so that times closer than a thousandth of a nanosecond are written alike, and
  reads outside of the values if there are fewer of them than times (C73).
* The profiles of the dipole application cannot be evaluated at the last row of their tables, where they throw; rows with the same argument are
  used in an unspecified order; an impulse response whose table starts after 0 throws before it; a blank line in a table reads outside of a
  vector and a header throws (C77).
* The permittivity of the ice in dipole_ice decreases with depth across the boundary of its two layers at 14.9 m (C78).
* NaN passes all validations, a failed SetRegion leaves the storage region modified (C48); min of unsigned and negative (C49).

## 6. Tests against wrong programs

`tools/mutate.py` applies a realistic bug to a scratch copy of the model, rebuilds and records which theorems fail
(`seeded/LOG.jsonl`).  Mutations that only changed unreachable cases were replaced; where a theorem survived it was tightened.

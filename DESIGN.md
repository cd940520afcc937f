# Formal model of riptide_cpp: design

The deliverable is a Rocq (Coq 8.16.1) model of the computational core of `riptide_cpp` under
`rocq/theories/` (logical name `Verif`) and theorems about it.  The properties are in
`properties.jsonl` (C01, C02, ...), the status of each in `MANIFEST.json`, the wrong programs the
theorems were tried on in `seeded/LOG.jsonl`.  `tools/mkdesign.py` makes this file from
`tools/design_head.md`, the manifest and `tools/assumptions.json`.

## Layout

For every subsystem `X` there are up to four kinds of files:

* `XModel.v`  - the model, function by function; every definition cites the C++ file and lines.
  No proofs.  The model is executable (`Eval vm_compute` works on it).
* `XSpec.v`   - a small specification that does not mention the model's helpers.
* `XProofs.v`, `X2Proofs.v`, ... - lemmas.
* `XProps.v`  - only the property theorems, each closed by `exact lemma` or a few lines, each
  followed by `Print Assumptions`; plus `Example`s showing that the hypotheses are met by concrete,
  non-trivial inputs.

`Base.v` holds list/arithmetic lemmas shared by all subsystems, `Mem.v`/`MemLemmas.v` arrays written by
blocks in any order, `Par.v`/`Inter.v` interleavings, `Num.v` machine integers, `Float64.v`/`MathFloat.v` IEEE numbers.

Naming: `Cnn_...` is a property theorem for property Cnn; `..._partial` proves part of it;
`..._refuted` exhibits (by computation) inputs for which the code violates the full statement.
A refuted property keeps its full statement in `properties.jsonl`; the manifest says `partial`
and the theorem proved is stated under the guard that makes it true.

## Modelling conventions

* Arrays are `list`s; a C++ function that writes through an output pointer becomes a function
  that returns the new array.  Writing outside an array or reading outside an array is a
  distinct outcome (`None`, or an explicit `UB`/`Bad`/`Over`/`Undefined` constructor) wherever the code
  does not check the bound itself; theorems then show that this outcome does not occur under the
  precondition the API promises, or exhibit the input for which it does.
* Memory that the code allocates and does not write is a parameter (`junk`, `garbage`): theorems hold for
  every content.
* Integers are `Z` when the property is not about overflow; when it is (sentinels, casts,
  keys narrowed to `int8_t`, hash arithmetic, CRC, 64-bit counters) the width is explicit and
  the wrap (`mod 2^w`) is written into the model.
* Floating point: conversions (C26, C57, C58), comparisons and arithmetic on two operands (C78-C80), operations on one
  array (C84-C86) and the positions of quantiles (C45) use IEEE numbers (`SpecFloat`, with Flocq for the link to real numbers).
  Where no arithmetic takes place (sorting, min/max, searching) floats are elements of an
  ordered type with NaN points.  Sums and averages (C34, C47, C68, C69, C71, C73, C74) are modelled in exact
  arithmetic (any commutative group, the rationals or the reals); their rounding is not modelled, except where the finding is
  the loss of precision itself (C73: accumulation in a double).
* Threads: the scheduler is a labelled transition system over main thread and any number of
  workers; each atomic step is one atomic access of the C++ code.  Sequential consistency is
  assumed: the code uses x86 interlocked instructions and volatile/`std::atomic` accesses.
  Other threaded code is modelled as "for every permutation/assignment of the blocks handed
  out", which is what the scheduler theorems (C01, C02) deliver.
* SIMD code is modelled where it differs from the scalar loop: comparisons (C78), arithmetic (C79), one-array operations (C84,
  C85), reductions (C73-C75), the count of boolean masks (C05, C59), CRC (C28), gathers of record columns (C33).
* Python/NumPy glue (argument parsing, reference counts, exceptions) is modelled only where a property is about it
  (C29, C70, C90, C91, C92); NumPy itself, zstd and the C mathematics library are parameters with stated laws.

## Trusted base

* Coq 8.16.1's kernel (and its virtual machine `vm_compute`, used for concrete witnesses and for
  finite sweeps; `coqchk` re-checks everything without it).
* What `Print Assumptions` reports under each theorem: listed at the end of this file.  No axioms are added.  All axioms come from
  the standard library's real numbers (`ClassicalDedekindReals.sig_forall_dec`, `sig_not_dec`,
  `FunctionalExtensionality.functional_extensionality_dep`, `Classical_Prop.classic`).  `coqchk` also names the opaque
  symbols of sealed modules in the files that are loaded (`Coq.Reals.Rdefinitions.RbaseSymbolsImpl.*`, `RinvImpl.*`,
  `Coq.ssr.ssrunder.Under_rel.*`), which have definitions in the standard library.
* The reading of the C++ source: there is no mechanical link between `/repo` and the model.
* Assumptions recorded above: sequential consistency; no 64-bit counter wraps in the scheduler;
  memory allocation succeeds unless a model says otherwise; hash functions are arbitrary functions (C17, C18, C20, C52-C55 and
  C89 are proved for every hash function).

## What is modelled and what is not

Modelled, file by file (the table below gives the functions):

* `MathThreads.h/.cpp`, `MathWorker.h/.cpp`: work blocks, the ring of work items, waking and finishing, bins split among threads.  Not:
  NUMA/affinity, the choice of the number of threads, platform thread creation.
* `BasicMath.cpp`, `Compare.cpp`, `UnaryOps.cpp`: operand checks, upcasting, scalars, kernels (vector and scalar), output arrays, overlap,
  Where, adding strings.  Not: POWER (the C library's pow).
* `Reduce.cpp`: sum, mean, variance, min, max, arg functions.  Not: NANAWARE_MIN/MAX of float32 beyond the recorded finding.
* `Convert.cpp`, `missing_values.h`, `RipTide.cpp` (dtype tables, strides, scalar conversion): all conversions of numbers, HStack, PutMask,
  SetItem, ShiftArrays, string widening; the Combine functions, `MakeiFirst`, `RemoveTrailingSpaces`, `SetItem`, `PutMask` and `ShiftArrays` (one dimension) from their arguments to their results.  Not: conversions between strings and numbers beyond C64.
* `Merge.cpp`, `Bins.cpp`: boolean and fancy indexing, searchsorted, cuts, reindexing; `BinsToCutsBSearch`, `NanInfCountFromSort`, `BinsToCutsSorted`,
  `ReIndex`, `ReMapIndex`, `ReverseShuffle`, `ReIndexGroups`, `BooleanSum`, `BooleanToFancy`, `BooleanIndex` and `MBGet` from their arguments to
  their results.
* `Sort.cpp`: merge sort, parallel merge, quick/heap sort in place, grouping of sorted rows; `LexSort`, `GroupFromLexSort`, `Sort`, `SortInPlace`, `SortInPlaceIndirect`
  and `IsSorted` from their arguments to their results.
* `HashLinear.cpp`, `HashFunctions.cpp`, `is_member_tg.h`, `MultiKey.cpp`: tables, IsMember, GroupBy, MultiKeyHash, as-of merges, packing,
  links; `IsMember32`, `IsMemberCategorical`, `IsMemberCategoricalFixup`, `MultiKeyGroupBy32`, `MultiKeyGroupBy32Super`, `MultiKeyUnique32`, `MultiKeyHash`,
  `MultiKeyRolling`, `MultiKeyAlign32`, `MultiKeyIsMember32`, `BinCount`, `GroupFromBinCount`, `MakeiNext`, `GroupByPack32` and `MergeBinnedAndSorted` from their arguments to
  their results.  Not: the particular hash functions (arbitrary functions in the model).
* `GroupBy.cpp`: accumulators (also variance and standard deviation), scatter/gather, `GroupByAll32` from its
  arguments to its results (not: columns of text, functions that sort rows first), bands, median, mode, quantile, trimmed mean, rolling functions,
  `GroupByAllPack32` from its arguments to its results.
* `Ema.cpp`, `Heap.h`, `TimeWindow.cpp`: cumulative, decayed, rolling and quantile functions, interpolation; `EmaAll32` (averages over the real numbers),
  `TimeWindow`, `Rolling` (variances: a parameter there) and `InterpExtrap2d` (exact arithmetic) from their arguments to their results.
* `DateTime.cpp`, `strptime5.cpp`: text to instants; `TimeStringToNanos`, `DateStringToNanos`, `DateTimeStringToNanos` and `StrptimeToNanos` from
  their arguments to their results.  Not: the locale (the C locale is assumed) and `gmtoff`.
* `SDSFile.cpp/.h`: file layout, section directories, writing by threads, reading back, stacking of several files, reads through a mask
  (not together with stacking), putting files together.  Not: shared memory (`SharedMemory.cpp`), Windows code.
* `one_input.cpp`, `one_input_impl.h`, `operation_traits.h`, the parts of `simd/avx2.h` they use: everything but the functions of the C library.
* `Compress.cpp`, `ZstdCompress.cpp`, `Array.cpp`, `CRC32.cpp`, `BitCount.cpp`, `TileRepeat.cpp`, `Recycler.cpp`,
  `logging/*`, `Logger.cpp`: as in the table.
* Not modelled at all: `Hook.cpp` (replacing NumPy's functions), `SDSFilePython.cpp` (argument parsing), `ndarray.h`, build and platform files.

## Findings

Besides the `_refuted` theorems, reading the code turned up defects that are outside the models.  They are recorded here, without proof:

* Basic operations: BOTH_SCALAR returns an empty array; a refused overlapping output leaks a reference; outputs without dimensions dereference NULL.
  `Where` leaks when the second buffer is not needed and returns None with an exception set on a length mismatch.
  `BasicMathUnaryOp` ignores `out=`/`dtype=` and leaks a descriptor.  In-place `+=` of strings leaks its UCS4 copy.
* Reduce: REDUCE_MIN_NANAWARE (210) returns NULL without an exception; arg functions of unsupported types raise ValueError.
* GroupBy: `binLow`/`binHigh` are not validated; the partitioned early return leaves caching switched off and leaks.
* Ema: `EmaAll32` sets an error and continues; masks and keys are read as contiguous; `CumExtreme` leaks.  Its "large negative" time is
  +2^31 or +2^63 for unsigned and floating times (unsigned literals) and INT_MIN for signed ones, so the first difference of signed times
  that are not negative overflows.
* GroupFromLexSort ignores the filter; changes its index argument if there are cutoffs; reads `cutoffs[-1]` if they are empty; writes outside of
  its arrays if the index has rows that do not exist, and, with cutoffs, for text of other sizes than 1, 2, 4 and 8 (C104).
* LexSort with empty cutoffs reads `cutoffs[-1]`; with an empty index it sorts uninitialised row numbers; cutoffs, directions and indexes that
  are no arrays are ignored, also a list of directions.
* IsMember: strides are ignored, outputs for long doubles are uninitialised, and an exception in a worker thread ends the process.
* GroupByAllPack: first/last/nth of VOID columns allocate an output of another width; so does the median of text.
* Putting SDS files together with `mustexist=False` and a missing file raises although the output is written.
* `MakeiFirst` of an unsupported type returns NULL without an exception; `ConvertUnsafe` of an array without dimensions reads `strides[0]`.
* SDS: names above 300 characters
  overflow a list of names; the size of the meta data is cut to 32 bits; enumerations to 8 bits.
* Stacking SDS files: `False` of a bool column becomes the invalid value when another file has integers; uint64 with small signed integers
  becomes int64, so large values are negative; the type of a column depends on the order of the files; texts of different widths in
  matrices, and bytes stacked with unicode of another width, are put in the wrong places; `NeedsRotation` is ignored in the second
  comparison, so a matrix in Fortran order may be copied raw; arrays without rows leave rows of the column unwritten; long doubles of a
  file without the column are 0; complex64 in a complex128 column is copied raw; the Fortran gap fill of texts calls a NULL function.
* Logger: `Py_BuildValue("s:I", ...)` is given an int64; sinks that do not exist are NULL; an interval of 0 spins.
* Compress: byte order is lost; the header is trusted.  `AsFastArray` dereferences NULL after errors.
* `MultiKeyAlign32` and `MultiKeyIsMember32` take the third column of a tuple for a filter, so that three columns only work in a list, and compare
  columns of one and two bytes with columns of two and one.  `MultiKeyAlign32` reads times as if they had no gaps, refuses dates for the first table and
  takes them as integers for the second (C122).  `MultiKeyIsMember32` refuses tables without rows (C123).
* `BinCount` and `GroupFromBinCount` call a null pointer for keys that are not signed integers, read keys with gaps as if they had none, and
  `GroupFromBinCount` writes beyond its result if the counts are not those of the keys (C124).  `MakeiNext` leaves rows whose key is out of range
  uninitialised and stores row numbers in the type of the keys (C125).
* `ShiftArrays` leaves an array with gaps as it is, since it shifts a copy of it, and overflows for the least amount (C127).
* `SetItem` looks at no strides and `PutMask` only at those of the array: masks and values with gaps are misread, and `SetItem` writes between the elements
  of an array with gaps (C128, C129).  `PutMask` follows a null pointer if NumPy cannot make an array of the values (C129).
* `ReverseShuffle` and `ReIndexGroups` look at no strides; `ReIndexGroups` reads behind the shorter of its two lists of ends and writes where they say (C130, C131).
* `IsMemberCategoricalFixup` checks neither the category numbers nor the strides of its arrays: too large a number reads memory behind a table.
* `MergeBinnedAndSorted` reads the keys as if they had the type of the times, whatever it is, and refuses the float types its message names; a second array of datetimes passes for an integer type.
* `GroupByPack32` writes to an empty array if there are no rows, does not check the keys, and with a next array leaves out groups that are not numbered
  by their first rows.  The next rows of `MakeiNext` cannot be given to it: the last rows are marked by another number (C126).
* `ReIndex` reads row numbers of uint32 as int32 (C109).
* `MultiKeyRolling` takes the third column of a tuple for the filter, so that three columns only work in a list (C121); a tuple without columns
  returns None without an error; an object that is no tuple is read as one.
* `MergeBinnedAndSorted`: the type of the keys is not checked; int8, int16 and float values are always refused.
* The readers of times return an array with an exception set if Python turns their warning into an error.
* Recycler: a recycled array may not have the order asked for; `RecycleFindArray` leaks a reference to None.

## Properties

The model of a property is in `XModel.v`, its theorems in `XProps.v` for the `X` in the second column. The last column says under which conditions the property is proved and what is refuted.

| id | X | property | source | status | proved, missing, refuted |
|---|---|---|---|---|---|
| C01 | Sched | Threaded work is split into blocks that cover every element exactly once | MathThreads.h, MathWorker.h | proved | Generic chunk mode with the default block size, the only one callers use; another block size is refuted as a latent defect. |
| C02 | Sched | A threaded call does not return while any worker can still touch its arrays | MathThreads.cpp, MathThreads.h, MathWorker.h | proved | Interleaving model of the main thread and any number of workers; sequentially consistent memory. |
| C03 | Sched | Threaded element-wise results equal the single-threaded result | MathThreads.h, MathWorker.h | proved |  |
| C04 | Sched | Work over bins is divided in contiguous bands that partition the bins | MathWorker.h | proved |  |
| C05 | Merge | Boolean-mask selection returns exactly the selected elements in order | Merge.cpp | partial | Proved for every mask, stride, item size and schedule, except contiguous masks over strided values of item size not in {1,2,4,8}, where the code advances the output by the input stride (refuted). |
| C06 | Merge | Boolean-to-fancy conversion lists the True positions in ascending order | Merge.cpp | partial | Proved for contiguous masks; strided masks are refuted (the fill pass ignores the stride). |
| C07 | Merge | Fancy indexing with default never reads out of bounds | Merge.cpp | partial | Proved for signed indices, unsigned indices below half range with fixed item sizes, and contiguous values when threaded; the excluded cases are refuted. |
| C08 | Merge | Reverse shuffle is the inverse permutation and never writes out of bounds | Merge.cpp | proved |  |
| C09 | Bins | searchsorted(left/right) matches its definition on sorted bins | Bins.cpp | partial | Proved for every value, chunking and schedule with at least one edge, at most 2^30 edges (or more than 2e9) and value/edge conversions that preserve comparisons; integer values against fractional edges, no edges, and about 2e9 edges are refuted. |
| C10 | Bins | Cutting values into bins puts every value in the right bin | Bins.cpp | partial | As C09, for strictly ascending edges; integer values against fractional edges are refuted (wrong bin, out-of-bounds read). |
| C11 | Accum | Group-by reductions compute the per-group reduction of exactly the group's rows | GroupBy.cpp | partial | sum, nansum, mean, nanmean, min/max, nanmin/nanmax and the float32 specialisations, generic in the element type. Refuted beyond: float32 nansum/nanmean clear the wrong bins when the range does not start at bin 0. Group count is covered by C15. |
| C12 | Grpx | Group-by over bands of groups equals the sequential group-by | GroupBy.cpp | proved | For the four banded functions (median, mode, quantile, trimmed mean) and for any function writing one value per group; any number of threads, any order of writes. |
| C13 | Accum | Scatter/gather group-by equals the sequential group-by | GroupBy.cpp | partial | Every assignment of blocks to cores; exact additions (64-bit wrap-around or no rounding). Refuted beyond: float32 nansum/nanmean with low > 0 read uninitialised memory, rounding additions depend on the schedule. |
| C14 | Group | The packed group layout is a stable grouped permutation of the rows | MultiKey.cpp | proved | All interleavings of the workers' steps on the shared cursor array; counts are the histogram of the keys. |
| C15 | Group | BinCount equals the histogram of the keys, threaded or not, packed or not | MultiKey.cpp | proved | Threaded and not, packed and not; every schedule of the writes to iGroup. No rows or no bins: error. |
| C16 | Grpx | first, last and nth of a group return the group's own rows | GroupBy.cpp | proved | Packed layout as produced by GroupFromBinCount (C14). |
| C17 | Hash | IsMember is exact: found iff present, index of the first occurrence | HashLinear.cpp | partial | Proved for every hash function and table with room, for integers, 1/2-byte items and multi-key rows. Floats need one sign of zero, strings no characters after a NUL, hints room for the distinct values: refuted otherwise. |
| C18 | Hash | Hash group-by numbers groups by first appearance and groups exactly the equal keys | HashLinear.cpp | partial | Proved for multi-key rows and all item types, with partitions. Refuted for 1/2-byte keys in PRIME mode (different keys share a group), for -0.0 and 0.0, and hints below the number of distinct keys throw. |
| C19 | Group | Next/previous-occurrence arrays link exactly the equal keys | MultiKey.cpp | partial | Guards: keys in range, row numbers fit the key type. Refuted beyond: int8 keys with more than 128 rows lose the row number; rows with an out-of-range key are never written. |
| C20 | Hash | As-of merge finds the closest preceding (following) row with the same key | HashLinear.cpp | partial | MultiKeyAlign (FindLastMatchMK, FindNextMatchMK): proved for both directions, with and without exact matches, any strict weak order of times. MergeBinnedAndSorted (FindLastMatchCategorical) reads the key of the second table at the cursor of the first: proved only when the second table has one key and is at least as long; refuted otherwise (wrong match, read behind the end). Its choice of the key type from the type of the times is not modelled |
| C21 | Sort | Index sort returns a stable sorted permutation with NaN last | Sort.cpp | proved | Integer, float, byte-string and unicode columns, ascending and descending, with and without threads. |
| C22 | Sort | The eight-way parallel merge sort equals the sequential merge sort for every schedule | Sort.cpp | proved | Interleavings of the eight work indices; a worker's sort or merge is one step, and two that overlap in time touch disjoint rows. |
| C23 | Sort | LexSort orders rows lexicographically | Sort.cpp | proved | Any number of columns, with and without index=. The cutoffs case is C50. |
| C24 | Sort | IsSorted answers exactly whether the array is sorted | Sort.cpp | proved |  |
| C25 | Sort | Grouping from a sort order yields exactly the runs of equal keys | Sort.cpp | partial | Refuted for 7-byte items in descending order, mixed 0.0/-0.0, base index 0 (different counts per item size), empty index, and cutoffs with item sizes other than 1, 2, 4, 8. Proved otherwise. |
| C26 | Conv | Type conversion maps invalid to invalid and valid to the same number when it fits | Convert.cpp, missing_values.h | proved | ConvertSafe, ConvertUnsafe and cast_nan_aware for one item of all 144 pairs of numeric types (long double as x87). Also: rounding, truncation, round trips; refuted: invalid to bool gives True, an infinity from or to long double becomes NaN, a valid value can become the destination's invalid value. |
| C27 | Date | Parsed dates and times denote the right instant | DateTime.cpp | partial | Every valid date, time and date-time text in every padding is proved to give the calendar instant of an independent Gregorian definition; out-of-range fields, text without digits, memory safety on every text and the array loop are proved. Refuted: day 31 of short months is accepted, a bad clock leaves the date, 'HH' depends on the array width, a padded HH:MM warns, isspace on wide characters, strptime before 1970. strptime itself is abstract. |
| C28 | Calc | The table-driven CRC64 equals the bitwise CRC64 | CRC32.cpp | proved | CRC32.cpp: the tables it builds, slicing by 8 and the byte loop; equal to the bit-at-a-time CRC for every buffer, start value and polynomial; incremental; any change within eight consecutive bytes changes the checksum |
| C29 | Recycle | The array recycler never hands out an array that is still in use | Recycler.cpp | partial | All sequences of creating, referring to, dropping, finding and collecting arrays, any number of arrays; refuted for negative type numbers (AllocateNumpy/TryRecycleNumpy do not check them). Head and Tail are unbounded counters in the model (32-bit in the code). Assumes every release of a reference by Python was its own; callers of the recycler are not modelled. |
| C30 | Work | Workspace allocations do not overlap while outstanding | Recycler.cpp | partial | One buffer at a time while caching is on, any number while it is off, any sequence of calls; refuted for two buffers held while caching is on and for RecycleGarbageCollectNow while threading is off. malloc returns a new address each time (addresses are not reused in the model). |
| C31 | Sds | Saved files load back to the saved arrays, also by section | SDSFile.cpp, SDSFile.h | partial | SDS files: any codec, any arrays of one to five dimensions, any interleaving of the writing threads, a first call and any number of later section calls: the directory lists each name with its offset, and reading at each offset returns names, meta data, dims, strides, flags, types and bytes (C31_sections_partial, C31_read_back_partial); saving succeeds for every complete thread schedule. Missing, with witnesses: banded size equal to the raw size is read raw (C31_size_collision_refuted), six dimensions overflow the read array (C31_six_dimensions_refuted), arrays without dimensions come back as None (C31_scalar_refuted); names with NUL bytes, fewer names than arrays and files of 2^62 bytes or more are excluded; masks and stacking are not modelled. |
| C32 | Calc | Time-window sums add exactly the rows within the window | TimeWindow.cpp | partial | proved for a distance of at least 0 and times less than 2^63 apart; refuted: the int64 difference overflows for times further apart; a negative distance still counts the row itself. Floating point: the order of operations is proved, rounding is not modelled (C32_any_partial holds for any operation) |
| C33 | Rec | Record-array to column conversion copies every field of every record | TileRepeat.cpp | partial | Proved for every record size, field layout, row count and order of the threads' writes, with all five copy loops, the cache blocking and the 32-bit gather indices. Refuted: no columns (endless loop), records of zero bytes (division by zero), unchecked offsets (read past the records). Columns are separate contiguous buffers. |
| C34 | Roll | Rolling window reductions equal their window definition | Ema.cpp | partial | Sums, nansums, means and nanmeans equal those of the window in any exact arithmetic, and modulo 2^64 for int64; variances in exact rationals. Missing: rounding of floats. Refuted: a NaN stays in a float sum for ever, negative windows leave the arrays, nanmean of integers counts invalids, var divides the first full window by n-1 and later ones by n, nanvar is wrong once a NaN enters. |
| C35 | Heap | Rolling quantile maintains two heaps that split the window at the quantile | Ema.cpp, Heap.h | partial | Both the array operation and the by-group one, for every stream, window and quantile: heap structure, and values at the code's index; the exact index where no window has an index within 1/1000 of a whole number but off it (always for medians). Missing: near-whole indices are snapped (C35_near_refuted), the int64 midpoint can overflow (C35_overflow_refuted); the rounding of the long double index is not modelled, the index is computed exactly. |
| C36 | Log | The log queue delivers every accepted message once in order | logging/logging_service.h, logging/waiting_deque.h | partial | Every interleaving of any number of threads, for all queue bounds: C36_order, C36_fifo, C36_full_queue (messages leave once, in push order; only a full queue drops), C36_ends and C36_delivered (every run is finite and no message is left while the consumer sleeps). The cancelled wait is proved where no cancel_wait writes wait_ between the consumer's test and its sleep; C36_cancel_refuted shows the lost wake up otherwise, as cancel_wait takes no lock. Memory is sequentially consistent in the model. |
| C37 | Calc | Bit counting counts the set bits of the two's-complement representation | BitCount.cpp | proved | all integer widths and booleans |
| C38 | Calc | NaN-passing min/max return NaN iff an operand is NaN | missing_values.h, rt_math.h | proved | floats, signed and unsigned integers; any order and any tree of combinations |
| C39 | Bins, Merge | Rows re-indexed by cut-offs stay inside their own partition | Bins.cpp, Merge.cpp | partial | ReIndexGroups, ReIndex and ReMapIndex; the code does not check that a key stays within the uniques of its own partition (refuted). |
| C40 | Group | Hash group-by packing links rows into the sorted group order | MultiKey.cpp | partial | Guards: at least one row, keys in range, next array computed. Refuted beyond: no rows and out-of-range keys write out of bounds; with a supplied next array the groups must be numbered by first occurrence. |
| C41 | Bins | Cutting with a sort index puts every row in its bin | Bins.cpp | partial | Proved when no finite value exceeds the last edge; otherwise the code reads one element past the edges (refuted). |
| C42 | Bins | Fixed-width strings are compared and binned by their text | Bins.cpp | partial | Comparison functions proved for zero-padded strings; the cut is proved for unthreaded calls, the threaded call reads the wrong rows (refuted). |
| C43 | Grpx | Group median | GroupBy.cpp | partial | Proved for values whose invalid marker is not equal to itself (NaN) and midpoints that do not overflow; int sentinels are counted as values, signed midpoints overflow, unsigned ones wrap (refuted). |
| C44 | Grpx | Group mode | GroupBy.cpp | partial | Proved for NaN-like invalid values; integer sentinels are counted as values (refuted). |
| C45 | Grpx | Group quantile | GroupBy.cpp | partial | Proved with the positions computed in binary64, shown to lie in the group; these are not always the exact floor and ceiling (refuted), and the integer midpoint can overflow (refuted). |
| C46 | Grpx | Group trimmed mean | GroupBy.cpp | proved | For sums independent of order; ntrim >= 1, as ntrimbad returns. |
| C47 | Grpx | Rolling sums and means within groups | GroupBy.cpp | partial | Proved for exact arithmetic and non-negative windows that do not overflow the row number type; NaN stays in the sum forever, a negative window leaves the output unwritten, huge windows read out of bounds (refuted). |
| C48 | Grpx | Rolling count, shift and difference within groups | GroupBy.cpp | partial | Proved unless the window overflows the row number type (refuted). |
| C49 | Sort | In-place sort | Sort.cpp | partial | Proved for every total comparison; refuted for byte strings (only the first n bytes are sorted, as characters) and for the merge sort of doubles (compared as floats). |
| C50 | Sort | Partitioned lexsort | Sort.cpp | partial | Proved without index=; refuted when index= is given together with cutoffs=. |
| C51 | Sort | Order of strings and raw items | Sort.cpp | partial | Both comparisons are strict weak orders of fixed-size items; raw items are not compared in byte order, and descending is not the reverse for odd sizes. |
| C52 | Hash | Membership of categoricals | HashFunctions.cpp, HashLinear.cpp | partial | 1/2-byte items are their own table position: refuted in PRIME mode for items past the table. The fix-up needs category numbers in range. |
| C53 | Hash | Sizes and links of hashed groups | HashLinear.cpp | proved | Any hash function, any table with room. |
| C54 | Hash | Rolling group numbers | HashLinear.cpp | partial | Keys wider than 16 bytes return uninitialised columns and are not modelled. |
| C55 | Hash | Group columns of MultiKeyHash | HashLinear.cpp, MultiKey.cpp | partial | All seven columns without a filter; the filter is ignored by the code (C55_filter_refuted). |
| C56 | Hash | Rows made of several key columns | MultiKey.cpp | proved | RotateArrays at the level of whole items; the blocked copy loops are not modelled. |
| C57 | Layout | Conversion of strided arrays | Convert.cpp, RipTide.cpp | partial | Proved for 0-D and 1-D arrays of any stride, C order, Fortran order, and rows any distance apart with the items of a row in C order (any number of dimensions); refuted for a first dimension of length 1, slices of Fortran arrays, broadcast and sliding-window views, three dimensions in Fortran order (items never written), and for ConvertUnsafe of ordinary 2-D arrays (writes outside the output). The conversion of one item is C26. |
| C58 | Conv | Joining arrays of different types | Convert.cpp | partial | HStack proved for every schedule; the common type is proved except for 64-bit integers with a floating result and ULONG with LONGLONG (refuted). HomogenizeArrays turns False into the invalid value (refuted). |
| C59 | Conv, Mask | Assignment under a boolean mask | Convert.cpp | partial | PutMask: proved except for bool values stored in another type (False is stored as the invalid value: refuted). SetItem: both paths and the vectorised count of the mask proved for contiguous arrays; strided masks are read as contiguous (refuted). |
| C60 | Comb | Group numbers combined with a filter | Convert.cpp | partial | CombineAccum1Filter up to 2^31 rows (first rows are int32); CombineFilter for filter bytes 0 and 1, refuted for other bytes. |
| C61 | Comb | Two group numbers combined into one | Convert.cpp | partial | group numbers within 0..max; refuted for negative (invalid) group numbers, which collide with other pairs or leave the range |
| C62 | Comb | First and last row of each group | Convert.cpp | proved | MakeiFirst with bFirst true and false |
| C63 | Comb | Shifting arrays in place | Convert.cpp | partial | 1-D arrays and 2-D arrays in Fortran order; refuted for 2-D arrays in C order (items instead of rows are shifted); 3-D Fortran arrays are not shifted; strided arrays (copied first) not modelled |
| C64 | Comb | Trailing spaces and widening of strings | Convert.cpp | proved | strings given as contiguous characters; TrailingSpaces for 1-byte and 4-byte characters alike |
| C65 | Ema | Running sums and products restart at resets and stay in their group | Ema.cpp | proved | Any addition (sums and products alike), all four mask combinations. Integer overflow is whatever the addition does; the conversion to the output type is a parameter. |
| C66 | Ema | FindNth numbers the rows of each group | Ema.cpp | proved | Both loops; the int32 counter is undefined from 2^31 on, which the row bound excludes. |
| C67 | Ema | Running minima and maxima | Ema.cpp | partial | All four loops of both functions for the rows of groups. Missing: with a mask the rows of no group are not written at all (C67_unwritten_refuted); without masks key 0 is treated as a group and a negative key is used as an index (C67_bin0_refuted). |
| C68 | Ema | Exponentially decayed sums | Ema.cpp | partial | Closed form over the reals for the plain, filter and reset loops. Missing: filter plus reset writes 0 everywhere (C68_both_refuted); unsigned times that go back (C68_unsigned_refuted); rounding is not modelled. |
| C69 | Ema | Exponential moving averages | Ema.cpp | partial | Recurrence over the reals without masks. Missing: a reset row gets value * (1 - exp(-rate * time)) (C69_reset_refuted), excluded rows leak into the result (C69_excluded_refuted), int64 times overflow at the first row of each group (C69_int64_refuted); rounding is not modelled. |
| C70 | Ema | EmaAll32 stays inside its arrays | Ema.cpp | partial | Types agree except for long double times, where 16-byte items are written into an array of 8-byte items (C70_longdouble_refuted). Keys above the number of groups and columns shorter than the keys are accepted (C70_key_refuted, C70_column_refuted). |
| C71 | Interp | InterpExtrap2d interpolates linearly between the points of each row | Ema.cpp | partial | Proved in exact rational arithmetic for strictly increasing points, all lengths and thread orders, when no value lies above the last point of the last (or only) row. Such a value makes the search read xp[M] before testing j < M: C71_beyond_undefined proves the read outside of the array for every such input, clipping or not. Floating-point rounding and infinities are not modelled. |
| C72 | Svc | Disabling logging handles what was logged and can be undone | Logger.cpp, logging/logging_service.h | partial | Every interleaving: C72_order (each record once, in order), C72_stops (disable can always return, also after a lost wake up, as the flusher runs until the handler has ended), C72_ended. A record is handled if the handler was not between the two tests of active() when it was queued; C72_lost_refuted shows the loss, after which EnableLogging does nothing for ever as the queue is not empty. C72_zero_batch_refuted: a batch size of zero keeps disable from returning. Not modelled: the timeout of disable, the Python calls of the handler, a full queue. |
| C73 | Red | Reduce sums an array | Reduce.cpp | partial | Proved for every length, element type and schedule: the sum and nansum of integers while the sum of the absolute values is at most 2^53, the invalid result as soon as one element is invalid, and floating-point sums over the reals (threaded: below 2^63 in absolute value). Refuted beyond: int64 sums are accumulated in a double; uint64 sums from 2^63 on come back as the invalid value; threaded float sums of large values become NaN in some schedules. Rounding of floating-point additions is not modelled. |
| C74 | Red | Reduce computes mean, variance and standard deviation | Reduce.cpp | partial | Proved over the reals with NaN for every length, ddof and schedule while the threaded sums stay below 2^63. Refuted: nanmean of an array of NaN only is 0; a threaded float64 variance with a large second sum is NaN. |
| C75 | Red | Reduce finds the minimum and the maximum | Reduce.cpp | proved | All eight integer types, float32 and float64, scalar and vector kernels, every schedule. Float values are modelled as ordered extended integers with NaN (no arithmetic takes place). Long double uses the scalar loop. The nan-aware float32 minimum (function 210) always returns NULL and is not covered. |
| C76 | Red | Reduce finds the position of the minimum and the maximum | Reduce.cpp | proved | All eight integer types and floats. |
| C77 | Red | Reduce reads the elements of the array | Reduce.cpp | partial | Proved for one-dimensional arrays and for arrays contiguous in C or Fortran order. Refuted: slices of arrays in Fortran order, strided arrays with one row, arrays without dimensions. |
| C78 | Cmp | Comparisons compare the numbers | BasicMath.cpp, Compare.cpp | partial | Integer arrays of any two types, array and Python integer, array and one-element array, floats of one type with NaN, mixed types under representability. Refuted: == and != of uint64 with int64 compare bits; a one-element int64 array before uint64; uint64 with Python integers below -2^31; uint8 with -200; int64 with 2^63; invalid values; int64 with float64 rounds. |
| C79 | Math | Arithmetic and bitwise operations on two operands | BasicMath.cpp | partial | Integers: exact result modulo the size of the smallest common type for arrays (new or in place) and Python integers on either side. Floats: the real result rounded once; NaN propagates. Division of integers up to 2^53. Missing because false: and-not with a scalar uses the first item only and reads past a register; x % 0 and INT_MIN // -1 trap; % has the sign of x while // rounds down; in place at an unaligned address faults; / of integers above 2^53 rounds three times. Not covered: uint64 with a signed type (converted to float), one-item arrays. |
| C80 | Two | Operands keep their numbers | BasicMath.cpp, RipTide.cpp | partial | Integer arrays with Python integers, two integer arrays, one-element arrays, float arrays and Python floats keep their numbers under stated conditions. Refuted: negative scalars of 8, 16, 32 bits with unsigned arrays; Python integers of 2^63 and more; uint64 with a negative scalar becomes float32; one-element uint64 array of 2^63; int32 with float32; invalid values are replaced; with an output array scalars are cut. |
| C81 | Out | An output array accepted for an operation on two operands receives exactly the result | BasicMath.cpp | partial | Proved for operands whose items are not wider than those of the output (arithmetic, and comparisons of one-byte items). Refuted for accepted outputs with narrower items inside an operand, and at the same address where the result depends on the threads. |
| C82 | Out | Operations on two arrays pair items with the same index and keep the shape | BasicMath.cpp | partial | Proved for equal shapes both in C order or both in Fortran order, and for an operand with a single item. Refuted: slices of Fortran-ordered arrays and rows with strided columns are read as contiguous, mixed orders pair the wrong items, incompatible shapes are accepted, (1,n) with (n,1) and (0,3) get the wrong shape. |
| C83 | Where | Where takes the first choice where the condition holds and the second elsewhere | BasicMath.cpp | partial | Proved for contiguous conditions, operands with the item size the caller gives, and arrays a whole number of items apart. Refuted: a condition with steps is read as contiguous, unaligned arrays and strings of another width are read at wrong addresses, a string scalar longer than the given item size overflows a buffer. |
| C84 | Unary | Operations on one array give at each position the result for the item there | UnaryOps.cpp | partial | Not modelled: SIGNBIT; NaN payloads and signs. Refuted: round(2.5) is 2 in the vector code and 3 in the scalar code; the sign of a zero result depends on the alignment; sign and ~ of the invalid integer give ordinary integers. |
| C85 | Unary | The tests for NaN, infinity, normal numbers, zero and invalid values are right for every type | UnaryOps.cpp | partial | Proved for all number types. Strings: proved for characters below 256; refuted for unicode, where only the lowest byte of the first character is looked at (U+0100 counts as empty). |
| C86 | Unary | Roots, logarithms and exponentials of integer arrays are those of the items | UnaryOps.cpp | partial | The functions of the C library are a parameter. Refuted: uint64 items from 2^63 on are read as negative numbers; the invalid value of unsigned types gives an ordinary number. |
| C87 | Uout | Operations on one array put each result at the index of its item | RipTide.cpp, UnaryOps.cpp | partial | Proved for one dimension with any strides, C order, Fortran order and rows of one stride into C order, with a new array or a given one that is apart from the input or the same array. Refuted: slices of arrays in Fortran order, windows (reads and writes outside of the array), unwritten items, arrays without dimensions, C order into Fortran order, arrays of another shape with as many items, overlapping arrays. |
| C88 | Strp | StrptimeToNanos reads back the texts that a format makes | DateTime.cpp, strptime5.cpp | partial | Proved for every format of literals, spaces, %% and the conversions Y y C+y m d e H k I l M S p a A b B h j U W V w u g n t F D x T X R r c that tells the date, with any text after it and with fractions; and that no format without %G reads outside of the text. Refuted: %G reads past the end; %z and %Z are dropped; %p before %I; texts that do not match; characters beyond eight bits; %j alone; %e with a space; 61 seconds. |
| C89 | Mtg | IsMember by concurrent hash maps finds each value and its first row | HashLinear.cpp, is_member_tg.h | partial | Proved for 1 to 999998 numbers, for more numbers if each million has a value for every hash map (some row; the first if the values are distinct), and for strings whose bytes are counted by the index type. Refuted: no items, 999999 or 1000000 items and a million and one equal items read the first item of an empty vector or divide by 0; with duplicates the row depends on the order of the messages; 16 strings of 16 characters are not found; 50 strings of 10 characters and unicode strings of 3 read outside the arrays. std::unordered_map is modelled as an association list. |
| C90 | Zip | Arrays and byte strings compressed in memory come back | Compress.cpp, ZstdCompress.cpp | partial | Proved: arrays of one length (not empty, not of objects) and byte strings that are not empty come back for every codec that can undo its compression, every level, every thread; DecompressString is total. Refuted: empty arrays compress but cannot be decompressed, empty byte strings give unwritten bytes, None in the list and arrays of objects give undefined behaviour, decompressing trusts the header, modes 2 and above misbehave, and a missing ZSTD context is taken for success. Byte order of arrays is not modelled. |
| C91 | Lst | An array made of a list holds the items of the list | Array.cpp | partial | Proved: lists of one type give arrays of their items if ints fit in 64 bits, not all bytes are empty, and no string is shorter than another by two or more; scalars other than objects become arrays of one item; no list makes the code write outside of the array. Refuted: larger ints become -1, characters after a shorter string are left over from the memory, lists of empty bytes likewise, objects are stored without counting a reference, wrong copy= and order= give a SystemError, and AsFastArray dereferences null when AsAnyArray raises. What numpy makes of other things is a parameter. |
| C92 | Cat | Adding arrays of strings joins the strings | BasicMath.cpp | partial | Proved: arrays of one dimension whose items follow each other, and arrays and strings of their type, are joined item by item if items have zeros only at the end, and nothing outside is read. Refuted: what follows a zero in an item is lost, matrices lose their shape, strides beyond the first dimension are ignored, which may read outside, output arrays are ignored and switch off the comparison of types (bytes of a string are then used as a number), arrays of one item are not added to longer ones. Two scalars, leaks of references and the arithmetic of numbers are left out here. |
| C93 | Stack | Stacking several SDS files gives one dataset with all their rows | SDSFile.cpp | partial | Refuted for bools stacked with other types, uint64 with signed integers, types depending on the order of files, matrices of texts with different widths, bytes with unicode of another width, arrays without rows in a dataset with rows, long doubles, complex64 with complex128 and some arrays in Fortran order; proved for the other columns in C order, for any number of files and any schedule of the threads. |
| C94 | One | An operation on one array gives the result for every item | one_input.cpp, one_input_impl.h, simd/avx2.h | partial | Proved for arrays without gaps and new results, for one dimension with a given result, and for the tests in memory that is large enough. Refuted: tests write outside of their new array, arrays with gaps and given matrices are written outside, ROUND and ABS of int64 depend on the position, NEG is INVERT, texts never end. |
| C95 | Sieve | Reading an SDS file through a boolean mask gives the rows of the mask | SDSFile.cpp, SDSFilePython.cpp | partial | Proved for masks without strides: one file (at least one True, columns with bytes, in C order, at least as many rows as the mask), several files (also no True element and longer masks, when the columns have as many rows as the first array), saved arrays come back row by row, errors, and no stop for several files whatever their bytes. Refuted: all-False mask of one file divides by zero, longer mask leaves bytes unwritten, Fortran order, strided masks, columns longer than the first array. |
| C96 | Var | Group variance and standard deviation are those of the rows of each group | GroupBy.cpp | proved | Proved for one call over all rows (the code calls these functions in no other way). The arithmetic is a parameter; over the real numbers the result is the variance of the sample. |
| C97 | All | A group-by call returns for every column the function's result for each group | GroupBy.cpp, MultiKey.cpp | partial | All functions, types, ranges and divisions of the rows. Refuted parts: keys with gaps are read as if contiguous; nansum of float32 clears the wrong bins when the range does not begin with bin 0; the list of last bins, the range of bins and an empty list of columns are not checked; a one-row view is refused; function numbers are cut to 32 bits; min of an empty group of bool is -128. When the rows are divided among threads, float sums and means are proved for arithmetic without rounding. |
| C98 | Pile | The sections of several SDS files put together in one file are all read back from it | SDSFile.cpp, SDSFilePython.cpp | partial | Proved for every codec and every list of files that were saved, extended or put together: all sections of all files come back, in order, from the offsets of the directory, and nothing else changes. Missing: C31's restrictions on what is saved, output files from 2^62 bytes on. Refuted: the names of the sections are lost (all are listed as 0); an output that is also an input is emptied before it is read. With mustexist=False a missing file makes the call raise although the output was written. |
| C99 | Px | A packed group-by call returns the function's result for each group or row | GroupBy.cpp, RipTide.cpp | partial | Missing and refuted: gaps in iGroup/iFirst/nCount, VOID items, medians of text, negative windows, unchecked lengths. Sums of floating point numbers are shown where they are exact. |
| C100 | Ism | Membership finds each value's first row in the other array | HashLinear.cpp, TypeSystem.h, numpy_traits.h | partial | Proved for contiguous arrays of comparable types whose table has room (hint 0 or at least the rows), without zeros of both signs and with padded text where widths differ; long doubles, wide complex numbers, strides and small hints are refuted. Half floats, complex64 (compared by bits) and the tbb table are outside. |
| C101 | Ism | Categorical membership numbers each value by its first row in the other array | HashFunctions.cpp, HashLinear.cpp | partial | Proved for contiguous arrays of comparable types whose table has room, mode 2 for items of one or two bytes, fewer than 2^31 rows in b; long doubles, mode 1 with small items and 2^31 rows are refuted. |
| C102 | Ea | EmaAll32 gives every column its running value by group, from arguments to results | Ema.cpp | partial | Proved for key, masks and times without gaps between elements, columns of the key's length, keys up to the number of groups; decayed sums and averages over the real numbers, with at most one mask (none for the averages), without long double times, and for the average by time without signed times that are not negative. Outside of this the code differs: strided keys, shorter columns, things that are no arrays as masks or times, calls without columns, long double times and signed times are refuted with witnesses. Refusals and None results are proved in full. |
| C103 | Lx | LexSort returns the rows in lexicographic order, from arguments to results | MultiKey.cpp, Sort.cpp, Sort.h | partial | Proved for columns of numbers and text (columns of raw bytes have another order, C51), directions that are a bool or an array of bool without gaps, an index and cutoffs without gaps and with at least one element, not both. Outside of this the code differs: empty index, empty cutoffs, no columns, directions of another type, an index with gaps, and index together with cutoffs are refuted with witnesses. Refusals are proved in full. |
| C104 | Gl | GroupFromLexSort groups the rows that LexSort has sorted, from arguments to results | Sort.cpp | partial | from arguments to results; groups after LexSort with and without cutoffs, any sorted index, and refusals proved; filter, gaps, empty cutoffs, base 0 and the changed index refuted |
| C105 | Wn | TimeWindow combines the rows of a window of time, from arguments to results | TimeWindow.cpp | partial | Proved for every array of numbers without gaps, int64 times that ascend and are less than 2^63 apart, every delta and every fair schedule; what is refused and what gives None in full. Refuted: arrays with gaps are read as if they had none; times 2^63 or more apart overflow. |
| C106 | Wn | Rolling computes each row from the last window rows, from arguments to results | Ema.cpp | partial | Proved for sums and means if adding and taking away again is exact (always for integers; for floating point numbers a hypothesis) and for quantiles whose index is not rounded wrongly; any stride; what is refused and what gives None in full. Not: variances (C34 has them over exact numbers). Refuted: negative windows, NaN that stays in the sum, the mean of valid integers counts the invalid one, midpoints of int32 that overflow. |
| C107 | Bn | BinsToCutsBSearch searches and cuts, from arguments to results | Bins.cpp | partial | numbers and text, from the arguments to the result; for arrays without gaps, edges that are numbers of the type of the values and the other way round, types other than bool and (text) no threads; refuted by witnesses otherwise |
| C108 | Bn | NanInfCountFromSort and BinsToCutsSorted count and cut sorted values, from arguments to results | Bins.cpp | partial | counts proved for every layout; cutting for arrays without gaps, at least two edges and values not above the last edge; values above it, short indices and wrong counts are refuted by witnesses |
| C109 | Bn | ReIndex and ReMapIndex look rows up, from arguments to results | Bins.cpp | partial | proved if every row is in range; ReMapIndex for arrays without gaps and of one length; refuted by witnesses otherwise |
| C110 | Mk | MultiKeyGroupBy32 groups the rows of its columns, from arguments to results | HashLinear.cpp, MultiKey.cpp | partial | Proved for every list of columns, filter without gaps, hint that is large enough or 0, mode and cutoffs: the numbers, the first rows, the partitions, the types, and what is refused. Refuted: a filter with gaps is read as if it had none, an empty list of columns reads outside of memory, mode 1 merges rows of one or two bytes, a hint that is too small with cutoffs raises an exception in a thread. |
| C111 | Mk | MultiKeyUnique32 and MultiKeyGroupBy32Super count the rows of each group, from arguments to results | HashLinear.cpp, MultiKey.cpp | partial | Proved for every list of columns and every filter without gaps. Refuted: a hint that is too small makes MultiKeyUnique32 return None without an error (C111_unique_partial) and MultiKeyGroupBy32Super leave without the interpreter lock (C111_hint_refuted). |
| C112 | Mk | MultiKeyHash describes the group of each row, from arguments to results | HashLinear.cpp, MultiKey.cpp | partial | Proved for every list of columns: the columns describe the groups of all rows. Refuted: dropped rows are grouped like the others, for every call with a filter that drops a row. |
| C113 | Sr | Sort and SortInPlace, from their arguments to their results | RipTide.cpp, Sort.cpp | partial | Proved for arrays of numbers without gaps, the merge sort only for values that float holds exactly (C113_sort_partial, C113_inplace_partial), and for byte strings of one ASCII character. Refuted: arrays with gaps (C113_gaps_refuted), doubles with the merge sort (C113_double_refuted), unknown modes and types are not refused (C113_mode_refuted, C113_dates_refuted), text of several bytes (C113_text_refuted), characters above 127 (C113_signed_refuted). |
| C114 | Sr | SortInPlaceIndirect replaces each key by its place in the index | Sort.cpp | partial | Proved for an index that lists every number once, keys below its length and the type pairs int32/int32, int32/int64, int64/int64. Refuted: the comment's formula (C114_comment_refuted), int64 keys with an int32 index (C114_types_refuted), keys that the index does not list (C114_unlisted_refuted), keys that are too great (C114_range_refuted). |
| C115 | Sr | IsSorted, from its arguments to its result | Sort.cpp | partial | Proved for numbers, byte strings and unicode strings; gaps and other types are refused; what Sort returns is sorted. Refuted for raw items, whose bytes are compared as little-endian words (C115_raw_refuted). |
| C116 | Cf | CombineFilter and CombineAccum2Filter, from their arguments to their results | Convert.cpp | partial | Proved for arrays without gaps, booleans 0 and 1, group numbers within their range and products below 2^63. Refuted: elements between those of a strided array are returned; a boolean stored as 2 doubles the number; the product of the maxima overflows unchecked. |
| C117 | Cf | CombineAccum1Filter and MakeiFirst, from their arguments to their results | Convert.cpp | partial | Proved for arrays without gaps and filters that are None or boolean arrays (up to 2^31 rows for CombineAccum1Filter, whose first rows are int32). Refuted: a filter that is another object, such as a list, is ignored without an error; strided arrays. |
| C118 | Cf | RemoveTrailingSpaces, from its argument to the memory it leaves | Convert.cpp | partial | Proved for arrays without gaps. Refuted: for a strided view the texts between its items are changed instead. |
| C119 | Dt | The readers of times and dates, from an array of texts to the times | DateTime.cpp | partial | Refuted for arrays with gaps and for characters from 128 on in byte strings or from 256 on in unicode strings; impossible days are those of C27. |
| C120 | Dt | StrptimeToNanos, from an array of texts and a format to the times | DateTime.cpp, strptime5.cpp | partial | Refuted for arrays with gaps and formats with %G. |
| C121 | Rk | MultiKeyRolling, from its arguments to its results, over any sequence of calls | HashLinear.cpp, MultiKey.cpp | partial | Refuted for a tuple of three or more columns, whose third is taken for the filter, and for rows of more than 16 bytes, for which uninitialised arrays are returned; hints that are too small and changed columns are left out. |
| C122 | Ak | MultiKeyAlign32, from its arguments to its results | HashLinear.cpp, MultiKey.cpp | partial | Proved for lists of columns and tuples of one or two columns, and times without gaps that go up. Refuted for tuples of three columns, times with gaps, dates, and columns split differently. |
| C123 | Ak | MultiKeyIsMember32, from its arguments to its results | HashLinear.cpp, MultiKey.cpp | partial | Proved for lists of columns and tuples of one or two columns, tables with rows and hints that are not too small. Refuted for tuples of three columns and tables without rows. |
| C124 | Bg | BinCount and GroupFromBinCount, from their arguments to their results | MultiKey.cpp | partial | keys are signed integers without gaps (unsigned keys call a null pointer, gaps are read: refuted); the counts of GroupFromBinCount are those of the keys (refuted otherwise) |
| C125 | Bg | MakeiNext, from its arguments to its result | MultiKey.cpp | partial | keys without gaps and in range, rows can be numbered in the type of the keys (all three refuted otherwise) |
| C126 | Gp | GroupByPack32, from its arguments to its results | MultiKey.cpp | partial | at least one row, keys in range and without gaps; a next array needs groups numbered by their first rows (all refuted otherwise) |
| C127 | Sh | ShiftArrays, from its arguments to its effect | Convert.cpp, MultiKey.cpp | partial | Proved for arrays without gaps of one dimension (C63 has those of two) whose length less the amount is a number of 64 bits. Refuted: arrays with gaps are left as they are; the least amount overflows. |
| C128 | Mw | SetItem, from its arguments to its effect | Convert.cpp | partial | Proved for arrays, masks and values without gaps. Refuted with gaps: each is read or written as if it had none. |
| C129 | Mw | PutMask, from its arguments to its effect | Convert.cpp | partial | Proved for masks and values without gaps and values that NumPy can convert. Refuted: masks with gaps are misread; values that cannot be converted lead to a null pointer. |
| C130 | Rv | ReverseShuffle, from its argument to its result | Merge.cpp | partial | Proved for arrays without gaps. Refuted: an array with gaps is read as if it had none. |
| C131 | Rv | ReIndexGroups, from its arguments to its effect | Merge.cpp | partial | Proved for arrays of signed integers without gaps and ends that ascend within the rows. Refuted: lists of ends of different lengths, ends behind the rows, gaps. |
| C132 | Bx | BooleanSum and BooleanToFancy, from their arguments to their results | Merge.cpp | partial | BooleanSum: every stride. BooleanToFancy: masks without gaps; refuted with gaps. |
| C133 | Bx | BooleanIndex, from its arguments to its result | Merge.cpp | partial | Proved but for values with gaps of an item size other than 1, 2, 4 and 8 under a mask without gaps, which write behind the result (refuted). |
| C134 | Fx | IsMemberCategoricalFixup, from its arguments to its results | HashFunctions.cpp | partial | Proved for arrays whose elements lie one after the other, category numbers within range and base offsets that are not negative. Refuted: category numbers that are too large (C134_range_refuted), arrays with gaps (C134_gaps_refuted). |
| C135 | Gx | MBGet, from its arguments to its result | Merge.cpp | partial | Proved for signed indexes, unsigned indexes of which the upper half is not used and item sizes 1, 2, 4, 8, 16, and with threads for values without gaps; masks as in C133. Refuted: unsigned indexes (C135_unsigned_refuted), unsigned indexes into strings (C135_strings_refuted), values with gaps when there are threads (C135_gaps_refuted). |
| C136 | Iq | InterpExtrap2d, from its arguments to its result | Ema.cpp | partial | Proved in exact arithmetic for values without gaps, rows of increasing points and values that are not above the last point of the last row. Refuted: values above the last point (C136_beyond_refuted), values with gaps (C136_gaps_refuted). |
| C137 | My | MergeBinnedAndSorted, from its arguments to its result | HashLinear.cpp | partial | Proved for int32 and int64 times with keys of the same width, arrays without gaps, second tables with one key and at least as many rows as the first. Refuted: several keys (C137_keys_refuted), fewer rows (C137_read_refuted), floats (C137_floats_refuted), keys of another width (C137_types_refuted), datetimes (C137_datetime_refuted). |

## What `Print Assumptions` lists

829 theorems; 762 are closed under the global context. The others use axioms of the standard library only (its real numbers):

* `ClassicalDedekindReals.sig_forall_dec`, `ClassicalDedekindReals.sig_not_dec`, `Classical_Prop.classic`, `FunctionalExtensionality.functional_extensionality_dep`: `C12_quantile`, `C26_cast_numbers`, `C26_includes`, `C26_nearest`, `C26_numbers`, `C26_roundtrip`, `C26_unsafe_numbers`, `C45_quantile_partial`, `C59_putmask_numbers_partial`, `C68_unsigned_refuted`, `C78_integers_partial`, `C78_mixed_partial`, `C78_one_item_partial`, `C78_scalar_partial`, `C79_divide_partial`, `C79_divide_scalar_partial`, `C79_float_scalar_partial`, `C79_floats_partial`, `C79_integers_partial`, `C79_scalar_partial`, `C79_subdatetimes`, `C80_float_arrays_partial`, `C80_float_scalar_partial`, `C80_int_arrays_partial`, `C80_int_scalar_partial`, `C80_one_item_partial`, `C84_floats_partial`, `C86_integers_partial`, `C86_sqrt_partial`, `C93_numbers_partial`, `C94_given_partial`, `C94_new_array_partial`, `C99_pack_partial`

* `ClassicalDedekindReals.sig_forall_dec`, `ClassicalDedekindReals.sig_not_dec`, `FunctionalExtensionality.functional_extensionality_dep`: `C102_averages_partial`, `C68_both_refuted`, `C68_decay_partial`, `C69_excluded_refuted`, `C69_int64_refuted`, `C69_reset_refuted`, `C74_var_nan`, `C74_var_partial`, `C74_var_threads_refuted`, `C96_real_groups`

* `ClassicalDedekindReals.sig_forall_dec`, `Classical_Prop.classic`, `FunctionalExtensionality.functional_extensionality_dep`: `C94_tests_partial`

* `ClassicalDedekindReals.sig_forall_dec`, `FunctionalExtensionality.functional_extensionality_dep`: `C26_truncate`, `C58_upcast_double_refuted`, `C69_normal_partial`, `C69_weighted_partial`, `C73_float_nansum_partial`, `C73_float_sum_nan`, `C73_float_sum_partial`, `C73_float_threads_refuted`, `C74_mean_nan`, `C74_mean_partial`, `C74_nanmean_empty_refuted`, `C78_precision_refuted`, `C79_divide_refuted`, `C80_float32_refuted`, `C80_one_item_refuted`, `C80_overflow_refuted`, `C80_precision_refuted`, `C84_round_position_refuted`, `C85_tests`, `C86_invalid_refuted`, `C94_named`, `C96_real_facts`, `C96_real_variance`

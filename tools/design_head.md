# Formal model of riptide_cpp: design

The deliverable is a Rocq (Coq 8.16.1) model of the computational core of `riptide_cpp` under
`rocq/theories/` (logical name `Verif`) and theorems about it.  The properties are in
`properties.jsonl` (C01, C02, ...), the status of each in `MANIFEST.json`, the wrong programs the
theorems were tried on in `seeded/LOG.jsonl`.  `tools/mkdesign.py` makes this file from
`tools/design_head.md`, the manifest and `tools/assumptions.json`.

## Layout

For every subsystem `X` there are up to four kinds of files:

* `XModel.v`  - the model, function by function; every definition cites the C++ file and lines.
  No proofs.  The model is executable (`Eval vm_compute` works on it).
* `XSpec.v`   - a small specification that does not mention the model's helpers.
* `XProofs.v`, `X2Proofs.v`, ... - lemmas.
* `XProps.v`  - only the property theorems, each closed by `exact lemma` or a few lines, each
  followed by `Print Assumptions`; plus `Example`s showing that the hypotheses are met by concrete,
  non-trivial inputs.

`Base.v` holds list/arithmetic lemmas shared by all subsystems, `Mem.v`/`MemLemmas.v` arrays written by
blocks in any order, `Par.v`/`Inter.v` interleavings, `Num.v` machine integers, `Float64.v`/`MathFloat.v` IEEE numbers.

Naming: `Cnn_...` is a property theorem for property Cnn; `..._partial` proves part of it;
`..._refuted` exhibits (by computation) inputs for which the code violates the full statement.
A refuted property keeps its full statement in `properties.jsonl`; the manifest says `partial`
and the theorem proved is stated under the guard that makes it true.

## Modelling conventions

* Arrays are `list`s; a C++ function that writes through an output pointer becomes a function
  that returns the new array.  Writing outside an array or reading outside an array is a
  distinct outcome (`None`, or an explicit `UB`/`Bad`/`Over`/`Undefined` constructor) wherever the code
  does not check the bound itself; theorems then show that this outcome does not occur under the
  precondition the API promises, or exhibit the input for which it does.
* Memory that the code allocates and does not write is a parameter (`junk`, `garbage`): theorems hold for
  every content.
* Integers are `Z` when the property is not about overflow; when it is (sentinels, casts,
  keys narrowed to `int8_t`, hash arithmetic, CRC, 64-bit counters) the width is explicit and
  the wrap (`mod 2^w`) is written into the model.
* Floating point: conversions (C26, C57, C58), comparisons and arithmetic on two operands (C78-C80), operations on one
  array (C84-C86) and the positions of quantiles (C45) use IEEE numbers (`SpecFloat`, with Flocq for the link to real numbers).
  Where no arithmetic takes place (sorting, min/max, searching) floats are elements of an
  ordered type with NaN points.  Sums and averages (C34, C47, C68, C69, C71, C73, C74) are modelled in exact
  arithmetic (any commutative group, the rationals or the reals); their rounding is not modelled, except where the finding is
  the loss of precision itself (C73: accumulation in a double).
* Threads: the scheduler is a labelled transition system over main thread and any number of
  workers; each atomic step is one atomic access of the C++ code.  Sequential consistency is
  assumed: the code uses x86 interlocked instructions and volatile/`std::atomic` accesses.
  Other threaded code is modelled as "for every permutation/assignment of the blocks handed
  out", which is what the scheduler theorems (C01, C02) deliver.
* SIMD code is modelled where it differs from the scalar loop: comparisons (C78), arithmetic (C79), one-array operations (C84,
  C85), reductions (C73-C75), the count of boolean masks (C05, C59), CRC (C28), gathers of record columns (C33).
* Python/NumPy glue (argument parsing, reference counts, exceptions) is modelled only where a property is about it
  (C29, C70, C90, C91, C92); NumPy itself, zstd and the C mathematics library are parameters with stated laws.

## Trusted base

* Coq 8.16.1's kernel (and its virtual machine `vm_compute`, used for concrete witnesses and for
  finite sweeps; `coqchk` re-checks everything without it).
* What `Print Assumptions` reports under each theorem: listed at the end of this file.  No axioms are added.  All axioms come from
  the standard library's real numbers (`ClassicalDedekindReals.sig_forall_dec`, `sig_not_dec`,
  `FunctionalExtensionality.functional_extensionality_dep`, `Classical_Prop.classic`).  `coqchk` also names the opaque
  symbols of sealed modules in the files that are loaded (`Coq.Reals.Rdefinitions.RbaseSymbolsImpl.*`, `RinvImpl.*`,
  `Coq.ssr.ssrunder.Under_rel.*`), which have definitions in the standard library.
* The reading of the C++ source: there is no mechanical link between `/repo` and the model.
* Assumptions recorded above: sequential consistency; no 64-bit counter wraps in the scheduler;
  memory allocation succeeds unless a model says otherwise; hash functions are arbitrary functions (C17, C18, C20, C52-C55 and
  C89 are proved for every hash function).

## What is modelled and what is not

Modelled, file by file (the table below gives the functions):

* `MathThreads.h/.cpp`, `MathWorker.h/.cpp`: work blocks, the ring of work items, waking and finishing, bins split among threads.  Not:
  NUMA/affinity, the choice of the number of threads, platform thread creation.
* `BasicMath.cpp`, `Compare.cpp`, `UnaryOps.cpp`: operand checks, upcasting, scalars, kernels (vector and scalar), output arrays, overlap,
  Where, adding strings.  Not: POWER (the C library's pow).
* `Reduce.cpp`: sum, mean, variance, min, max, arg functions.  Not: NANAWARE_MIN/MAX of float32 beyond the recorded finding.
* `Convert.cpp`, `missing_values.h`, `RipTide.cpp` (dtype tables, strides, scalar conversion): all conversions of numbers, HStack, PutMask,
  SetItem, ShiftArrays, string widening; the Combine functions, `MakeiFirst`, `RemoveTrailingSpaces`, `SetItem`, `PutMask` and `ShiftArrays` (one dimension) from their arguments to their results.  Not: conversions between strings and numbers beyond C64.
* `Merge.cpp`, `Bins.cpp`: boolean and fancy indexing, searchsorted, cuts, reindexing; `BinsToCutsBSearch`, `NanInfCountFromSort`, `BinsToCutsSorted`,
  `ReIndex`, `ReMapIndex`, `ReverseShuffle`, `ReIndexGroups`, `BooleanSum`, `BooleanToFancy`, `BooleanIndex` and `MBGet` from their arguments to
  their results.
* `Sort.cpp`: merge sort, parallel merge, quick/heap sort in place, grouping of sorted rows; `LexSort`, `GroupFromLexSort`, `Sort`, `SortInPlace`, `SortInPlaceIndirect`
  and `IsSorted` from their arguments to their results.
* `HashLinear.cpp`, `HashFunctions.cpp`, `is_member_tg.h`, `MultiKey.cpp`: tables, IsMember, GroupBy, MultiKeyHash, as-of merges, packing,
  links; `IsMember32`, `IsMemberCategorical`, `IsMemberCategoricalFixup`, `MultiKeyGroupBy32`, `MultiKeyGroupBy32Super`, `MultiKeyUnique32`, `MultiKeyHash`,
  `MultiKeyRolling`, `MultiKeyAlign32`, `MultiKeyIsMember32`, `BinCount`, `GroupFromBinCount`, `MakeiNext`, `GroupByPack32` and `MergeBinnedAndSorted` from their arguments to
  their results.  Not: the particular hash functions (arbitrary functions in the model).
* `GroupBy.cpp`: accumulators (also variance and standard deviation), scatter/gather, `GroupByAll32` from its
  arguments to its results (not: columns of text, functions that sort rows first), bands, median, mode, quantile, trimmed mean, rolling functions,
  `GroupByAllPack32` from its arguments to its results.
* `Ema.cpp`, `Heap.h`, `TimeWindow.cpp`: cumulative, decayed, rolling and quantile functions, interpolation; `EmaAll32` (averages over the real numbers),
  `TimeWindow`, `Rolling` (variances: a parameter there) and `InterpExtrap2d` (exact arithmetic) from their arguments to their results.
* `DateTime.cpp`, `strptime5.cpp`: text to instants; `TimeStringToNanos`, `DateStringToNanos`, `DateTimeStringToNanos` and `StrptimeToNanos` from
  their arguments to their results.  Not: the locale (the C locale is assumed) and `gmtoff`.
* `SDSFile.cpp/.h`: file layout, section directories, writing by threads, reading back, stacking of several files, reads through a mask
  (not together with stacking), putting files together.  Not: shared memory (`SharedMemory.cpp`), Windows code.
* `one_input.cpp`, `one_input_impl.h`, `operation_traits.h`, the parts of `simd/avx2.h` they use: everything but the functions of the C library.
* `Compress.cpp`, `ZstdCompress.cpp`, `Array.cpp`, `CRC32.cpp`, `BitCount.cpp`, `TileRepeat.cpp`, `Recycler.cpp`,
  `logging/*`, `Logger.cpp`: as in the table.
* Not modelled at all: `Hook.cpp` (replacing NumPy's functions), `SDSFilePython.cpp` (argument parsing), `ndarray.h`, build and platform files.

## Findings

Besides the `_refuted` theorems, reading the code turned up defects that are outside the models.  They are recorded here, without proof:

* Basic operations: BOTH_SCALAR returns an empty array; a refused overlapping output leaks a reference; outputs without dimensions dereference NULL.
  `Where` leaks when the second buffer is not needed and returns None with an exception set on a length mismatch.
  `BasicMathUnaryOp` ignores `out=`/`dtype=` and leaks a descriptor.  In-place `+=` of strings leaks its UCS4 copy.
* Reduce: REDUCE_MIN_NANAWARE (210) returns NULL without an exception; arg functions of unsupported types raise ValueError.
* GroupBy: `binLow`/`binHigh` are not validated; the partitioned early return leaves caching switched off and leaks.
* Ema: `EmaAll32` sets an error and continues; masks and keys are read as contiguous; `CumExtreme` leaks.  Its "large negative" time is
  +2^31 or +2^63 for unsigned and floating times (unsigned literals) and INT_MIN for signed ones, so the first difference of signed times
  that are not negative overflows.
* GroupFromLexSort ignores the filter; changes its index argument if there are cutoffs; reads `cutoffs[-1]` if they are empty; writes outside of
  its arrays if the index has rows that do not exist, and, with cutoffs, for text of other sizes than 1, 2, 4 and 8 (C104).
* LexSort with empty cutoffs reads `cutoffs[-1]`; with an empty index it sorts uninitialised row numbers; cutoffs, directions and indexes that
  are no arrays are ignored, also a list of directions.
* IsMember: strides are ignored, outputs for long doubles are uninitialised, and an exception in a worker thread ends the process.
* GroupByAllPack: first/last/nth of VOID columns allocate an output of another width; so does the median of text.
* Putting SDS files together with `mustexist=False` and a missing file raises although the output is written.
* `MakeiFirst` of an unsupported type returns NULL without an exception; `ConvertUnsafe` of an array without dimensions reads `strides[0]`.
* SDS: names above 300 characters
  overflow a list of names; the size of the meta data is cut to 32 bits; enumerations to 8 bits.
* Stacking SDS files: `False` of a bool column becomes the invalid value when another file has integers; uint64 with small signed integers
  becomes int64, so large values are negative; the type of a column depends on the order of the files; texts of different widths in
  matrices, and bytes stacked with unicode of another width, are put in the wrong places; `NeedsRotation` is ignored in the second
  comparison, so a matrix in Fortran order may be copied raw; arrays without rows leave rows of the column unwritten; long doubles of a
  file without the column are 0; complex64 in a complex128 column is copied raw; the Fortran gap fill of texts calls a NULL function.
* Logger: `Py_BuildValue("s:I", ...)` is given an int64; sinks that do not exist are NULL; an interval of 0 spins.
* Compress: byte order is lost; the header is trusted.  `AsFastArray` dereferences NULL after errors.
* `MultiKeyAlign32` and `MultiKeyIsMember32` take the third column of a tuple for a filter, so that three columns only work in a list, and compare
  columns of one and two bytes with columns of two and one.  `MultiKeyAlign32` reads times as if they had no gaps, refuses dates for the first table and
  takes them as integers for the second (C122).  `MultiKeyIsMember32` refuses tables without rows (C123).
* `BinCount` and `GroupFromBinCount` call a null pointer for keys that are not signed integers, read keys with gaps as if they had none, and
  `GroupFromBinCount` writes beyond its result if the counts are not those of the keys (C124).  `MakeiNext` leaves rows whose key is out of range
  uninitialised and stores row numbers in the type of the keys (C125).
* `ShiftArrays` leaves an array with gaps as it is, since it shifts a copy of it, and overflows for the least amount (C127).
* `SetItem` looks at no strides and `PutMask` only at those of the array: masks and values with gaps are misread, and `SetItem` writes between the elements
  of an array with gaps (C128, C129).  `PutMask` follows a null pointer if NumPy cannot make an array of the values (C129).
* `ReverseShuffle` and `ReIndexGroups` look at no strides; `ReIndexGroups` reads behind the shorter of its two lists of ends and writes where they say (C130, C131).
* `IsMemberCategoricalFixup` checks neither the category numbers nor the strides of its arrays: too large a number reads memory behind a table.
* `MergeBinnedAndSorted` reads the keys as if they had the type of the times, whatever it is, and refuses the float types its message names; a second array of datetimes passes for an integer type.
* `GroupByPack32` writes to an empty array if there are no rows, does not check the keys, and with a next array leaves out groups that are not numbered
  by their first rows.  The next rows of `MakeiNext` cannot be given to it: the last rows are marked by another number (C126).
* `ReIndex` reads row numbers of uint32 as int32 (C109).
* `MultiKeyRolling` takes the third column of a tuple for the filter, so that three columns only work in a list (C121); a tuple without columns
  returns None without an error; an object that is no tuple is read as one.
* `MergeBinnedAndSorted`: the type of the keys is not checked; int8, int16 and float values are always refused.
* The readers of times return an array with an exception set if Python turns their warning into an error.
* Recycler: a recycled array may not have the order asked for; `RecycleFindArray` leaks a reference to None.

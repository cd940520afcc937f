{
 "C01": {
  "status": "proved",
  "note": "Generic chunk mode with the default block size, the only one callers use; another block size is refuted as a latent defect."
 },
 "C02": {
  "status": "proved",
  "note": "Interleaving model of the main thread and any number of workers; sequentially consistent memory."
 },
 "C03": {
  "status": "proved",
  "note": ""
 },
 "C04": {
  "status": "proved",
  "note": ""
 },
 "C05": {
  "status": "partial",
  "note": "Proved for every mask, stride, item size and schedule, except contiguous masks over strided values of item size not in {1,2,4,8}, where the code advances the output by the input stride (refuted)."
 },
 "C06": {
  "status": "partial",
  "note": "Proved for contiguous masks; strided masks are refuted (the fill pass ignores the stride)."
 },
 "C07": {
  "status": "partial",
  "note": "Proved for signed indices, unsigned indices below half range with fixed item sizes, and contiguous values when threaded; the excluded cases are refuted."
 },
 "C08": {
  "status": "proved",
  "note": ""
 },
 "C39": {
  "status": "partial",
  "note": "ReIndexGroups, ReIndex and ReMapIndex; the code does not check that a key stays within the uniques of its own partition (refuted)."
 },
 "C09": {
  "status": "partial",
  "note": "Proved for every value, chunking and schedule with at least one edge, at most 2^30 edges (or more than 2e9) and value/edge conversions that preserve comparisons; integer values against fractional edges, no edges, and about 2e9 edges are refuted."
 },
 "C10": {
  "status": "partial",
  "note": "As C09, for strictly ascending edges; integer values against fractional edges are refuted (wrong bin, out-of-bounds read)."
 },
 "C41": {
  "status": "partial",
  "note": "Proved when no finite value exceeds the last edge; otherwise the code reads one element past the edges (refuted)."
 },
 "C42": {
  "status": "partial",
  "note": "Comparison functions proved for zero-padded strings; the cut is proved for unthreaded calls, the threaded call reads the wrong rows (refuted)."
 },
 "C14": {
  "status": "proved",
  "note": "All interleavings of the workers' steps on the shared cursor array; counts are the histogram of the keys."
 },
 "C15": {
  "status": "proved",
  "note": "Threaded and not, packed and not; every schedule of the writes to iGroup. No rows or no bins: error."
 },
 "C19": {
  "status": "partial",
  "note": "Guards: keys in range, row numbers fit the key type. Refuted beyond: int8 keys with more than 128 rows lose the row number; rows with an out-of-range key are never written."
 },
 "C40": {
  "status": "partial",
  "note": "Guards: at least one row, keys in range, next array computed. Refuted beyond: no rows and out-of-range keys write out of bounds; with a supplied next array the groups must be numbered by first occurrence."
 },
 "C11": {
  "status": "partial",
  "note": "sum, nansum, mean, nanmean, min/max, nanmin/nanmax and the float32 specialisations, generic in the element type. Refuted beyond: float32 nansum/nanmean clear the wrong bins when the range does not start at bin 0. Group count is covered by C15."
 },
 "C13": {
  "status": "partial",
  "note": "Every assignment of blocks to cores; exact additions (64-bit wrap-around or no rounding). Refuted beyond: float32 nansum/nanmean with low > 0 read uninitialised memory, rounding additions depend on the schedule."
 },
 "C12": {
  "status": "proved",
  "note": "For the four banded functions (median, mode, quantile, trimmed mean) and for any function writing one value per group; any number of threads, any order of writes."
 },
 "C16": {
  "status": "proved",
  "note": "Packed layout as produced by GroupFromBinCount (C14)."
 },
 "C43": {
  "status": "partial",
  "note": "Proved for values whose invalid marker is not equal to itself (NaN) and midpoints that do not overflow; int sentinels are counted as values, signed midpoints overflow, unsigned ones wrap (refuted)."
 },
 "C44": {
  "status": "partial",
  "note": "Proved for NaN-like invalid values; integer sentinels are counted as values (refuted)."
 },
 "C45": {
  "status": "partial",
  "note": "Proved with the positions computed in binary64, shown to lie in the group; these are not always the exact floor and ceiling (refuted), and the integer midpoint can overflow (refuted)."
 },
 "C46": {
  "status": "proved",
  "note": "For sums independent of order; ntrim >= 1, as ntrimbad returns."
 },
 "C47": {
  "status": "partial",
  "note": "Proved for exact arithmetic and non-negative windows that do not overflow the row number type; NaN stays in the sum forever, a negative window leaves the output unwritten, huge windows read out of bounds (refuted)."
 },
 "C48": {
  "status": "partial",
  "note": "Proved unless the window overflows the row number type (refuted)."
 },
 "C21": {
  "status": "proved",
  "note": "Integer, float, byte-string and unicode columns, ascending and descending, with and without threads."
 },
 "C22": {
  "status": "proved",
  "note": "Interleavings of the eight work indices; a worker's sort or merge is one step, and two that overlap in time touch disjoint rows."
 },
 "C23": {
  "status": "proved",
  "note": "Any number of columns, with and without index=. The cutoffs case is C50."
 },
 "C24": {
  "status": "proved",
  "note": ""
 },
 "C25": {
  "status": "partial",
  "note": "Refuted for 7-byte items in descending order, mixed 0.0/-0.0, base index 0 (different counts per item size), empty index, and cutoffs with item sizes other than 1, 2, 4, 8. Proved otherwise."
 },
 "C49": {
  "status": "partial",
  "note": "Proved for every total comparison; refuted for byte strings (only the first n bytes are sorted, as characters) and for the merge sort of doubles (compared as floats)."
 },
 "C50": {
  "status": "partial",
  "note": "Proved without index=; refuted when index= is given together with cutoffs=."
 },
 "C51": {
  "status": "partial",
  "note": "Both comparisons are strict weak orders of fixed-size items; raw items are not compared in byte order, and descending is not the reverse for odd sizes."
 },
 "C17": {
  "status": "partial",
  "note": "Proved for every hash function and table with room, for integers, 1/2-byte items and multi-key rows. Floats need one sign of zero, strings no characters after a NUL, hints room for the distinct values: refuted otherwise."
 },
 "C18": {
  "status": "partial",
  "note": "Proved for multi-key rows and all item types, with partitions. Refuted for 1/2-byte keys in PRIME mode (different keys share a group), for -0.0 and 0.0, and hints below the number of distinct keys throw."
 },
 "C20": {
  "status": "partial",
  "note": "MultiKeyAlign (FindLastMatchMK, FindNextMatchMK): proved for both directions, with and without exact matches, any strict weak order of times. MergeBinnedAndSorted (FindLastMatchCategorical) reads the key of the second table at the cursor of the first: proved only when the second table has one key and is at least as long; refuted otherwise (wrong match, read behind the end). Its choice of the key type from the type of the times is not modelled"
 },
 "C52": {
  "status": "partial",
  "note": "1/2-byte items are their own table position: refuted in PRIME mode for items past the table. The fix-up needs category numbers in range."
 },
 "C53": {
  "status": "proved",
  "note": "Any hash function, any table with room."
 },
 "C54": {
  "status": "partial",
  "note": "Keys wider than 16 bytes return uninitialised columns and are not modelled."
 },
 "C55": {
  "status": "partial",
  "note": "All seven columns without a filter; the filter is ignored by the code (C55_filter_refuted)."
 },
 "C56": {
  "status": "proved",
  "note": "RotateArrays at the level of whole items; the blocked copy loops are not modelled."
 },
 "C28": {
  "status": "proved",
  "note": "CRC32.cpp: the tables it builds, slicing by 8 and the byte loop; equal to the bit-at-a-time CRC for every buffer, start value and polynomial; incremental; any change within eight consecutive bytes changes the checksum"
 },
 "C32": {
  "status": "partial",
  "note": "proved for a distance of at least 0 and times less than 2^63 apart; refuted: the int64 difference overflows for times further apart; a negative distance still counts the row itself. Floating point: the order of operations is proved, rounding is not modelled (C32_any_partial holds for any operation)"
 },
 "C37": {
  "status": "proved",
  "note": "all integer widths and booleans"
 },
 "C38": {
  "status": "proved",
  "note": "floats, signed and unsigned integers; any order and any tree of combinations"
 },
 "C27": {
  "status": "partial",
  "note": "Every valid date, time and date-time text in every padding is proved to give the calendar instant of an independent Gregorian definition; out-of-range fields, text without digits, memory safety on every text and the array loop are proved. Refuted: day 31 of short months is accepted, a bad clock leaves the date, 'HH' depends on the array width, a padded HH:MM warns, isspace on wide characters, strptime before 1970. strptime itself is abstract."
 },
 "C33": {
  "status": "partial",
  "note": "Proved for every record size, field layout, row count and order of the threads' writes, with all five copy loops, the cache blocking and the 32-bit gather indices. Refuted: no columns (endless loop), records of zero bytes (division by zero), unchecked offsets (read past the records). Columns are separate contiguous buffers."
 },
 "C26": {
  "status": "proved",
  "note": "ConvertSafe, ConvertUnsafe and cast_nan_aware for one item of all 144 pairs of numeric types (long double as x87). Also: rounding, truncation, round trips; refuted: invalid to bool gives True, an infinity from or to long double becomes NaN, a valid value can become the destination's invalid value."
 },
 "C58": {
  "status": "partial",
  "note": "HStack proved for every schedule; the common type is proved except for 64-bit integers with a floating result and ULONG with LONGLONG (refuted). HomogenizeArrays turns False into the invalid value (refuted)."
 },
 "C59": {
  "status": "partial",
  "note": "PutMask: proved except for bool values stored in another type (False is stored as the invalid value: refuted). SetItem: both paths and the vectorised count of the mask proved for contiguous arrays; strided masks are read as contiguous (refuted)."
 },
 "C60": {
  "status": "partial",
  "note": "CombineAccum1Filter up to 2^31 rows (first rows are int32); CombineFilter for filter bytes 0 and 1, refuted for other bytes."
 },
 "C61": {
  "status": "partial",
  "note": "group numbers within 0..max; refuted for negative (invalid) group numbers, which collide with other pairs or leave the range"
 },
 "C62": {
  "status": "proved",
  "note": "MakeiFirst with bFirst true and false"
 },
 "C63": {
  "status": "partial",
  "note": "1-D arrays and 2-D arrays in Fortran order; refuted for 2-D arrays in C order (items instead of rows are shifted); 3-D Fortran arrays are not shifted; strided arrays (copied first) not modelled"
 },
 "C64": {
  "status": "proved",
  "note": "strings given as contiguous characters; TrailingSpaces for 1-byte and 4-byte characters alike"
 },
 "C57": {
  "status": "partial",
  "note": "Proved for 0-D and 1-D arrays of any stride, C order, Fortran order, and rows any distance apart with the items of a row in C order (any number of dimensions); refuted for a first dimension of length 1, slices of Fortran arrays, broadcast and sliding-window views, three dimensions in Fortran order (items never written), and for ConvertUnsafe of ordinary 2-D arrays (writes outside the output). The conversion of one item is C26."
 },
 "C30": {
  "status": "partial",
  "note": "One buffer at a time while caching is on, any number while it is off, any sequence of calls; refuted for two buffers held while caching is on and for RecycleGarbageCollectNow while threading is off. malloc returns a new address each time (addresses are not reused in the model)."
 },
 "C29": {
  "status": "partial",
  "note": "All sequences of creating, referring to, dropping, finding and collecting arrays, any number of arrays; refuted for negative type numbers (AllocateNumpy/TryRecycleNumpy do not check them). Head and Tail are unbounded counters in the model (32-bit in the code). Assumes every release of a reference by Python was its own; callers of the recycler are not modelled."
 },
 "C34": {
  "status": "partial",
  "note": "Sums, nansums, means and nanmeans equal those of the window in any exact arithmetic, and modulo 2^64 for int64; variances in exact rationals. Missing: rounding of floats. Refuted: a NaN stays in a float sum for ever, negative windows leave the arrays, nanmean of integers counts invalids, var divides the first full window by n-1 and later ones by n, nanvar is wrong once a NaN enters."
 },
 "C35": {
  "status": "partial",
  "note": "Both the array operation and the by-group one, for every stream, window and quantile: heap structure, and values at the code's index; the exact index where no window has an index within 1/1000 of a whole number but off it (always for medians). Missing: near-whole indices are snapped (C35_near_refuted), the int64 midpoint can overflow (C35_overflow_refuted); the rounding of the long double index is not modelled, the index is computed exactly."
 },
 "C65": {
  "status": "proved",
  "note": "Any addition (sums and products alike), all four mask combinations. Integer overflow is whatever the addition does; the conversion to the output type is a parameter."
 },
 "C66": {
  "status": "proved",
  "note": "Both loops; the int32 counter is undefined from 2^31 on, which the row bound excludes."
 },
 "C67": {
  "status": "partial",
  "note": "All four loops of both functions for the rows of groups. Missing: with a mask the rows of no group are not written at all (C67_unwritten_refuted); without masks key 0 is treated as a group and a negative key is used as an index (C67_bin0_refuted)."
 },
 "C68": {
  "status": "partial",
  "note": "Closed form over the reals for the plain, filter and reset loops. Missing: filter plus reset writes 0 everywhere (C68_both_refuted); unsigned times that go back (C68_unsigned_refuted); rounding is not modelled."
 },
 "C69": {
  "status": "partial",
  "note": "Recurrence over the reals without masks. Missing: a reset row gets value * (1 - exp(-rate * time)) (C69_reset_refuted), excluded rows leak into the result (C69_excluded_refuted), int64 times overflow at the first row of each group (C69_int64_refuted); rounding is not modelled."
 },
 "C70": {
  "status": "partial",
  "note": "Types agree except for long double times, where 16-byte items are written into an array of 8-byte items (C70_longdouble_refuted). Keys above the number of groups and columns shorter than the keys are accepted (C70_key_refuted, C70_column_refuted)."
 },
 "C71": {
  "status": "partial",
  "note": "Proved in exact rational arithmetic for strictly increasing points, all lengths and thread orders, when no value lies above the last point of the last (or only) row. Such a value makes the search read xp[M] before testing j < M: C71_beyond_undefined proves the read outside of the array for every such input, clipping or not. Floating-point rounding and infinities are not modelled."
 },
 "C36": {
  "status": "partial",
  "note": "Every interleaving of any number of threads, for all queue bounds: C36_order, C36_fifo, C36_full_queue (messages leave once, in push order; only a full queue drops), C36_ends and C36_delivered (every run is finite and no message is left while the consumer sleeps). The cancelled wait is proved where no cancel_wait writes wait_ between the consumer's test and its sleep; C36_cancel_refuted shows the lost wake up otherwise, as cancel_wait takes no lock. Memory is sequentially consistent in the model."
 },
 "C72": {
  "status": "partial",
  "note": "Every interleaving: C72_order (each record once, in order), C72_stops (disable can always return, also after a lost wake up, as the flusher runs until the handler has ended), C72_ended. A record is handled if the handler was not between the two tests of active() when it was queued; C72_lost_refuted shows the loss, after which EnableLogging does nothing for ever as the queue is not empty. C72_zero_batch_refuted: a batch size of zero keeps disable from returning. Not modelled: the timeout of disable, the Python calls of the handler, a full queue."
 },
 "C31": {
  "status": "partial",
  "note": "SDS files: any codec, any arrays of one to five dimensions, any interleaving of the writing threads, a first call and any number of later section calls: the directory lists each name with its offset, and reading at each offset returns names, meta data, dims, strides, flags, types and bytes (C31_sections_partial, C31_read_back_partial); saving succeeds for every complete thread schedule. Missing, with witnesses: banded size equal to the raw size is read raw (C31_size_collision_refuted), six dimensions overflow the read array (C31_six_dimensions_refuted), arrays without dimensions come back as None (C31_scalar_refuted); names with NUL bytes, fewer names than arrays and files of 2^62 bytes or more are excluded; masks and stacking are not modelled."
 },
 "C73": {
  "status": "partial",
  "note": "Proved for every length, element type and schedule: the sum and nansum of integers while the sum of the absolute values is at most 2^53, the invalid result as soon as one element is invalid, and floating-point sums over the reals (threaded: below 2^63 in absolute value). Refuted beyond: int64 sums are accumulated in a double; uint64 sums from 2^63 on come back as the invalid value; threaded float sums of large values become NaN in some schedules. Rounding of floating-point additions is not modelled."
 },
 "C74": {
  "status": "partial",
  "note": "Proved over the reals with NaN for every length, ddof and schedule while the threaded sums stay below 2^63. Refuted: nanmean of an array of NaN only is 0; a threaded float64 variance with a large second sum is NaN."
 },
 "C75": {
  "status": "proved",
  "note": "All eight integer types, float32 and float64, scalar and vector kernels, every schedule. Float values are modelled as ordered extended integers with NaN (no arithmetic takes place). Long double uses the scalar loop. The nan-aware float32 minimum (function 210) always returns NULL and is not covered."
 },
 "C76": {
  "status": "proved",
  "note": "All eight integer types and floats."
 },
 "C77": {
  "status": "partial",
  "note": "Proved for one-dimensional arrays and for arrays contiguous in C or Fortran order. Refuted: slices of arrays in Fortran order, strided arrays with one row, arrays without dimensions."
 },
 "C78": {
  "status": "partial",
  "note": "Integer arrays of any two types, array and Python integer, array and one-element array, floats of one type with NaN, mixed types under representability. Refuted: == and != of uint64 with int64 compare bits; a one-element int64 array before uint64; uint64 with Python integers below -2^31; uint8 with -200; int64 with 2^63; invalid values; int64 with float64 rounds."
 },
 "C80": {
  "status": "partial",
  "note": "Integer arrays with Python integers, two integer arrays, one-element arrays, float arrays and Python floats keep their numbers under stated conditions. Refuted: negative scalars of 8, 16, 32 bits with unsigned arrays; Python integers of 2^63 and more; uint64 with a negative scalar becomes float32; one-element uint64 array of 2^63; int32 with float32; invalid values are replaced; with an output array scalars are cut."
 },
 "C79": {
  "status": "partial",
  "note": "Integers: exact result modulo the size of the smallest common type for arrays (new or in place) and Python integers on either side. Floats: the real result rounded once; NaN propagates. Division of integers up to 2^53. Missing because false: and-not with a scalar uses the first item only and reads past a register; x % 0 and INT_MIN // -1 trap; % has the sign of x while // rounds down; in place at an unaligned address faults; / of integers above 2^53 rounds three times. Not covered: uint64 with a signed type (converted to float), one-item arrays."
 },
 "C81": {
  "status": "partial",
  "note": "Proved for operands whose items are not wider than those of the output (arithmetic, and comparisons of one-byte items). Refuted for accepted outputs with narrower items inside an operand, and at the same address where the result depends on the threads."
 },
 "C82": {
  "status": "partial",
  "note": "Proved for equal shapes both in C order or both in Fortran order, and for an operand with a single item. Refuted: slices of Fortran-ordered arrays and rows with strided columns are read as contiguous, mixed orders pair the wrong items, incompatible shapes are accepted, (1,n) with (n,1) and (0,3) get the wrong shape."
 },
 "C83": {
  "status": "partial",
  "note": "Proved for contiguous conditions, operands with the item size the caller gives, and arrays a whole number of items apart. Refuted: a condition with steps is read as contiguous, unaligned arrays and strings of another width are read at wrong addresses, a string scalar longer than the given item size overflows a buffer."
 },
 "C84": {
  "status": "partial",
  "note": "Not modelled: SIGNBIT; NaN payloads and signs. Refuted: round(2.5) is 2 in the vector code and 3 in the scalar code; the sign of a zero result depends on the alignment; sign and ~ of the invalid integer give ordinary integers."
 },
 "C85": {
  "status": "partial",
  "note": "Proved for all number types. Strings: proved for characters below 256; refuted for unicode, where only the lowest byte of the first character is looked at (U+0100 counts as empty)."
 },
 "C86": {
  "status": "partial",
  "note": "The functions of the C library are a parameter. Refuted: uint64 items from 2^63 on are read as negative numbers; the invalid value of unsigned types gives an ordinary number."
 },
 "C87": {
  "status": "partial",
  "note": "Proved for one dimension with any strides, C order, Fortran order and rows of one stride into C order, with a new array or a given one that is apart from the input or the same array. Refuted: slices of arrays in Fortran order, windows (reads and writes outside of the array), unwritten items, arrays without dimensions, C order into Fortran order, arrays of another shape with as many items, overlapping arrays."
 },
 "C88": {
  "status": "partial",
  "note": "Proved for every format of literals, spaces, %% and the conversions Y y C+y m d e H k I l M S p a A b B h j U W V w u g n t F D x T X R r c that tells the date, with any text after it and with fractions; and that no format without %G reads outside of the text. Refuted: %G reads past the end; %z and %Z are dropped; %p before %I; texts that do not match; characters beyond eight bits; %j alone; %e with a space; 61 seconds."
 },
 "C89": {
  "status": "partial",
  "note": "Proved for 1 to 999998 numbers, for more numbers if each million has a value for every hash map (some row; the first if the values are distinct), and for strings whose bytes are counted by the index type. Refuted: no items, 999999 or 1000000 items and a million and one equal items read the first item of an empty vector or divide by 0; with duplicates the row depends on the order of the messages; 16 strings of 16 characters are not found; 50 strings of 10 characters and unicode strings of 3 read outside the arrays. std::unordered_map is modelled as an association list."
 },
 "C90": {
  "status": "partial",
  "note": "Proved: arrays of one length (not empty, not of objects) and byte strings that are not empty come back for every codec that can undo its compression, every level, every thread; DecompressString is total. Refuted: empty arrays compress but cannot be decompressed, empty byte strings give unwritten bytes, None in the list and arrays of objects give undefined behaviour, decompressing trusts the header, modes 2 and above misbehave, and a missing ZSTD context is taken for success. Byte order of arrays is not modelled."
 },
 "C91": {
  "status": "partial",
  "note": "Proved: lists of one type give arrays of their items if ints fit in 64 bits, not all bytes are empty, and no string is shorter than another by two or more; scalars other than objects become arrays of one item; no list makes the code write outside of the array. Refuted: larger ints become -1, characters after a shorter string are left over from the memory, lists of empty bytes likewise, objects are stored without counting a reference, wrong copy= and order= give a SystemError, and AsFastArray dereferences null when AsAnyArray raises. What numpy makes of other things is a parameter."
 },
 "C92": {
  "status": "partial",
  "note": "Proved: arrays of one dimension whose items follow each other, and arrays and strings of their type, are joined item by item if items have zeros only at the end, and nothing outside is read. Refuted: what follows a zero in an item is lost, matrices lose their shape, strides beyond the first dimension are ignored, which may read outside, output arrays are ignored and switch off the comparison of types (bytes of a string are then used as a number), arrays of one item are not added to longer ones. Two scalars, leaks of references and the arithmetic of numbers are left out here."
 },
 "C93": {
  "status": "partial",
  "note": "Refuted for bools stacked with other types, uint64 with signed integers, types depending on the order of files, matrices of texts with different widths, bytes with unicode of another width, arrays without rows in a dataset with rows, long doubles, complex64 with complex128 and some arrays in Fortran order; proved for the other columns in C order, for any number of files and any schedule of the threads."
 },
 "C94": {
  "status": "partial",
  "note": "Proved for arrays without gaps and new results, for one dimension with a given result, and for the tests in memory that is large enough. Refuted: tests write outside of their new array, arrays with gaps and given matrices are written outside, ROUND and ABS of int64 depend on the position, NEG is INVERT, texts never end."
 },
 "C95": {
  "status": "partial",
  "note": "Proved for masks without strides: one file (at least one True, columns with bytes, in C order, at least as many rows as the mask), several files (also no True element and longer masks, when the columns have as many rows as the first array), saved arrays come back row by row, errors, and no stop for several files whatever their bytes. Refuted: all-False mask of one file divides by zero, longer mask leaves bytes unwritten, Fortran order, strided masks, columns longer than the first array."
 },
 "C96": {
  "status": "proved",
  "note": "Proved for one call over all rows (the code calls these functions in no other way). The arithmetic is a parameter; over the real numbers the result is the variance of the sample."
 },
 "C97": {
  "status": "partial",
  "note": "All functions, types, ranges and divisions of the rows. Refuted parts: keys with gaps are read as if contiguous; nansum of float32 clears the wrong bins when the range does not begin with bin 0; the list of last bins, the range of bins and an empty list of columns are not checked; a one-row view is refused; function numbers are cut to 32 bits; min of an empty group of bool is -128. When the rows are divided among threads, float sums and means are proved for arithmetic without rounding."
 },
 "C98": {
  "status": "partial",
  "note": "Proved for every codec and every list of files that were saved, extended or put together: all sections of all files come back, in order, from the offsets of the directory, and nothing else changes. Missing: C31's restrictions on what is saved, output files from 2^62 bytes on. Refuted: the names of the sections are lost (all are listed as 0); an output that is also an input is emptied before it is read. With mustexist=False a missing file makes the call raise although the output was written."
 },
 "C99": {
  "status": "partial",
  "note": "Missing and refuted: gaps in iGroup/iFirst/nCount, VOID items, medians of text, negative windows, unchecked lengths. Sums of floating point numbers are shown where they are exact."
 },
 "C100": {
  "status": "partial",
  "note": "Proved for contiguous arrays of comparable types whose table has room (hint 0 or at least the rows), without zeros of both signs and with padded text where widths differ; long doubles, wide complex numbers, strides and small hints are refuted. Half floats, complex64 (compared by bits) and the tbb table are outside."
 },
 "C101": {
  "status": "partial",
  "note": "Proved for contiguous arrays of comparable types whose table has room, mode 2 for items of one or two bytes, fewer than 2^31 rows in b; long doubles, mode 1 with small items and 2^31 rows are refuted."
 },
 "C102": {
  "status": "partial",
  "note": "Proved for key, masks and times without gaps between elements, columns of the key's length, keys up to the number of groups; decayed sums and averages over the real numbers, with at most one mask (none for the averages), without long double times, and for the average by time without signed times that are not negative. Outside of this the code differs: strided keys, shorter columns, things that are no arrays as masks or times, calls without columns, long double times and signed times are refuted with witnesses. Refusals and None results are proved in full."
 },
 "C103": {
  "status": "partial",
  "note": "Proved for columns of numbers and text (columns of raw bytes have another order, C51), directions that are a bool or an array of bool without gaps, an index and cutoffs without gaps and with at least one element, not both. Outside of this the code differs: empty index, empty cutoffs, no columns, directions of another type, an index with gaps, and index together with cutoffs are refuted with witnesses. Refusals are proved in full."
 },
 "C104": {
  "status": "partial",
  "note": "from arguments to results; groups after LexSort with and without cutoffs, any sorted index, and refusals proved; filter, gaps, empty cutoffs, base 0 and the changed index refuted"
 },
 "C105": {
  "status": "partial",
  "note": "Proved for every array of numbers without gaps, int64 times that ascend and are less than 2^63 apart, every delta and every fair schedule; what is refused and what gives None in full. Refuted: arrays with gaps are read as if they had none; times 2^63 or more apart overflow."
 },
 "C106": {
  "status": "partial",
  "note": "Proved for sums and means if adding and taking away again is exact (always for integers; for floating point numbers a hypothesis) and for quantiles whose index is not rounded wrongly; any stride; what is refused and what gives None in full. Not: variances (C34 has them over exact numbers). Refuted: negative windows, NaN that stays in the sum, the mean of valid integers counts the invalid one, midpoints of int32 that overflow."
 },
 "C107": {
  "status": "partial",
  "note": "numbers and text, from the arguments to the result; for arrays without gaps, edges that are numbers of the type of the values and the other way round, types other than bool and (text) no threads; refuted by witnesses otherwise"
 },
 "C108": {
  "status": "partial",
  "note": "counts proved for every layout; cutting for arrays without gaps, at least two edges and values not above the last edge; values above it, short indices and wrong counts are refuted by witnesses"
 },
 "C109": {
  "status": "partial",
  "note": "proved if every row is in range; ReMapIndex for arrays without gaps and of one length; refuted by witnesses otherwise"
 },
 "C110": {
  "status": "partial",
  "note": "Proved for every list of columns, filter without gaps, hint that is large enough or 0, mode and cutoffs: the numbers, the first rows, the partitions, the types, and what is refused. Refuted: a filter with gaps is read as if it had none, an empty list of columns reads outside of memory, mode 1 merges rows of one or two bytes, a hint that is too small with cutoffs raises an exception in a thread."
 },
 "C111": {
  "status": "partial",
  "note": "Proved for every list of columns and every filter without gaps. Refuted: a hint that is too small makes MultiKeyUnique32 return None without an error (C111_unique_partial) and MultiKeyGroupBy32Super leave without the interpreter lock (C111_hint_refuted)."
 },
 "C112": {
  "status": "partial",
  "note": "Proved for every list of columns: the columns describe the groups of all rows. Refuted: dropped rows are grouped like the others, for every call with a filter that drops a row."
 },
 "C113": {
  "status": "partial",
  "note": "Proved for arrays of numbers without gaps, the merge sort only for values that float holds exactly (C113_sort_partial, C113_inplace_partial), and for byte strings of one ASCII character. Refuted: arrays with gaps (C113_gaps_refuted), doubles with the merge sort (C113_double_refuted), unknown modes and types are not refused (C113_mode_refuted, C113_dates_refuted), text of several bytes (C113_text_refuted), characters above 127 (C113_signed_refuted)."
 },
 "C114": {
  "status": "partial",
  "note": "Proved for an index that lists every number once, keys below its length and the type pairs int32/int32, int32/int64, int64/int64. Refuted: the comment's formula (C114_comment_refuted), int64 keys with an int32 index (C114_types_refuted), keys that the index does not list (C114_unlisted_refuted), keys that are too great (C114_range_refuted)."
 },
 "C115": {
  "status": "partial",
  "note": "Proved for numbers, byte strings and unicode strings; gaps and other types are refused; what Sort returns is sorted. Refuted for raw items, whose bytes are compared as little-endian words (C115_raw_refuted)."
 },
 "C116": {
  "status": "partial",
  "note": "Proved for arrays without gaps, booleans 0 and 1, group numbers within their range and products below 2^63. Refuted: elements between those of a strided array are returned; a boolean stored as 2 doubles the number; the product of the maxima overflows unchecked."
 },
 "C117": {
  "status": "partial",
  "note": "Proved for arrays without gaps and filters that are None or boolean arrays (up to 2^31 rows for CombineAccum1Filter, whose first rows are int32). Refuted: a filter that is another object, such as a list, is ignored without an error; strided arrays."
 },
 "C118": {
  "status": "partial",
  "note": "Proved for arrays without gaps. Refuted: for a strided view the texts between its items are changed instead."
 },
 "C119": {
  "status": "partial",
  "note": "Refuted for arrays with gaps and for characters from 128 on in byte strings or from 256 on in unicode strings; impossible days are those of C27."
 },
 "C120": {
  "status": "partial",
  "note": "Refuted for arrays with gaps and formats with %G."
 },
 "C121": {
  "status": "partial",
  "note": "Refuted for a tuple of three or more columns, whose third is taken for the filter, and for rows of more than 16 bytes, for which uninitialised arrays are returned; hints that are too small and changed columns are left out."
 },
 "C122": {
  "status": "partial",
  "note": "Proved for lists of columns and tuples of one or two columns, and times without gaps that go up. Refuted for tuples of three columns, times with gaps, dates, and columns split differently."
 },
 "C123": {
  "status": "partial",
  "note": "Proved for lists of columns and tuples of one or two columns, tables with rows and hints that are not too small. Refuted for tuples of three columns and tables without rows."
 },
 "C124": {
  "status": "partial",
  "note": "keys are signed integers without gaps (unsigned keys call a null pointer, gaps are read: refuted); the counts of GroupFromBinCount are those of the keys (refuted otherwise)"
 },
 "C125": {
  "status": "partial",
  "note": "keys without gaps and in range, rows can be numbered in the type of the keys (all three refuted otherwise)"
 },
 "C126": {
  "status": "partial",
  "note": "at least one row, keys in range and without gaps; a next array needs groups numbered by their first rows (all refuted otherwise)"
 },
 "C127": {
  "status": "partial",
  "note": "Proved for arrays without gaps of one dimension (C63 has those of two) whose length less the amount is a number of 64 bits. Refuted: arrays with gaps are left as they are; the least amount overflows."
 },
 "C128": {
  "status": "partial",
  "note": "Proved for arrays, masks and values without gaps. Refuted with gaps: each is read or written as if it had none."
 },
 "C129": {
  "status": "partial",
  "note": "Proved for masks and values without gaps and values that NumPy can convert. Refuted: masks with gaps are misread; values that cannot be converted lead to a null pointer."
 },
 "C130": {
  "status": "partial",
  "note": "Proved for arrays without gaps. Refuted: an array with gaps is read as if it had none."
 },
 "C131": {
  "status": "partial",
  "note": "Proved for arrays of signed integers without gaps and ends that ascend within the rows. Refuted: lists of ends of different lengths, ends behind the rows, gaps."
 },
 "C132": {
  "status": "partial",
  "note": "BooleanSum: every stride. BooleanToFancy: masks without gaps; refuted with gaps."
 },
 "C133": {
  "status": "partial",
  "note": "Proved but for values with gaps of an item size other than 1, 2, 4 and 8 under a mask without gaps, which write behind the result (refuted)."
 },
 "C134": {
  "status": "partial",
  "note": "Proved for arrays whose elements lie one after the other, category numbers within range and base offsets that are not negative. Refuted: category numbers that are too large (C134_range_refuted), arrays with gaps (C134_gaps_refuted)."
 },
 "C135": {
  "status": "partial",
  "note": "Proved for signed indexes, unsigned indexes of which the upper half is not used and item sizes 1, 2, 4, 8, 16, and with threads for values without gaps; masks as in C133. Refuted: unsigned indexes (C135_unsigned_refuted), unsigned indexes into strings (C135_strings_refuted), values with gaps when there are threads (C135_gaps_refuted)."
 },
 "C136": {
  "status": "partial",
  "note": "Proved in exact arithmetic for values without gaps, rows of increasing points and values that are not above the last point of the last row. Refuted: values above the last point (C136_beyond_refuted), values with gaps (C136_gaps_refuted)."
 },
 "C137": {
  "status": "partial",
  "note": "Proved for int32 and int64 times with keys of the same width, arrays without gaps, second tables with one key and at least as many rows as the first. Refuted: several keys (C137_keys_refuted), fewer rows (C137_read_refuted), floats (C137_floats_refuted), keys of another width (C137_types_refuted), datetimes (C137_datetime_refuted)."
 }
}
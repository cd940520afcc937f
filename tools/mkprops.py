#!/usr/bin/env python3
"""Writes /verif/properties.jsonl from the table below (one property per entry)."""
import json, os
P = []
def p(id, title, statement, quantifier, why, anchors):
    P.append(dict(id=id, title=title, statement=statement, quantifier=quantifier,
                  why_tests_cant=why, anchors=anchors))

p("C01", "Threaded work is split into blocks that cover every element exactly once",
  "When an array operation is run through the thread pool, the blocks handed out to the main thread and the workers are non-empty, in bounds, pairwise disjoint and together cover every element index 0..len-1 exactly once, whichever thread asks for the next block and in whatever order.",
  "every array length, every block size the library uses, every number of worker threads, every interleaving of block requests",
  "a test fixes one machine's core count and one scheduling; a missed or doubled tail block shows only for particular lengths and schedules",
  ["src/MathThreads.h: stMATH_WORKER_ITEM::GetNextWorkIndex, GetNextWorkBlock, GetWorkBlock", "src/MathWorker.h: CMathWorker::WorkMain, DoMultiThreadedChunkWork"])
p("C02", "A threaded call does not return while any worker can still touch its arrays",
  "When a call that used the thread pool returns, every block it published has been completed (unless the call was interrupted) and no worker thread is inside, or can later enter, the callback of that call; late workers never execute work of the following call twice or with the previous call's arguments.",
  "every interleaving of the main thread and any number of workers over any sequence of calls, including interrupts",
  "use-after-return needs a worker to be descheduled at one particular instruction; tests practically never hit it",
  ["src/MathWorker.h: CMathWorker::WorkMain", "src/MathThreads.h: stWorkerRing::SetWorkItem, CompleteWorkItem", "src/MathThreads.cpp: WorkerThreadFunction"])
p("C03", "Threaded element-wise results equal the single-threaded result",
  "For an operation that computes each output element from the inputs at the same index, running it through the chunked thread pool produces exactly the array the single-threaded call produces.",
  "every array length, every assignment of blocks to threads and every order of execution",
  "the property is about all interleavings of block executions",
  ["src/MathWorker.h: DoMultiThreadedChunkWork", "src/MathThreads.h: GetNextWorkBlock"])
p("C04", "Work over bins is divided in contiguous bands that partition the bins",
  "Dividing n bins (or rows) over cores yields at most min(n, cores, requested cores) bands; the bands are contiguous, non-empty, in order, start at 0, end at n, and their sizes differ by at most one.",
  "every bin count, every machine core count, every requested core count",
  "an off-by-one in the remainder distribution only shows for particular n mod cores",
  ["src/MathWorker.h: CMathWorker::SegmentBins"])
p("C05", "Boolean-mask selection returns exactly the selected elements in order",
  "Filtering an array by a boolean mask of the same length returns an array whose length is the number of True entries and whose elements are the elements at True positions in ascending index order; the multi-threaded count/offset scheme gives the same answer as a sequential scan.",
  "every mask, every array, every chunk schedule",
  "the per-chunk counts and 8-byte popcount trick interact with chunk boundaries for arbitrary lengths",
  ["src/Merge.cpp: SumBooleanMask, BooleanCount, BooleanIndexInternal, BooleanSum"])
p("C06", "Boolean-to-fancy conversion lists the True positions in ascending order",
  "BooleanToFancy(mask) returns exactly the positions of the True entries in ascending order; with both=True it returns these followed by the False positions in ascending order together with the number of True entries.",
  "every mask length, every stride, every chunk schedule",
  "chunk offsets for the False half depend on every earlier chunk's count",
  ["src/Merge.cpp: BooleanToFancy"])
p("C07", "Fancy indexing with default never reads out of bounds",
  "MBGet(values, index, default) returns for each i values[index[i]] when 0 <= index[i] < n, values[index[i]+n] when -n <= index[i] < 0, and the default otherwise; no element outside values is ever read.",
  "every values array, every index array of every integer type and stride",
  "bounds must hold for every possible index value including type extremes",
  ["src/Merge.cpp: GetItemInt, GetItemUInt, GetItemIntVariable, GetItemCallback, MBGet"])
p("C08", "Reverse shuffle is the inverse permutation and never writes out of bounds",
  "ReverseShuffle(p) for a permutation p of 0..n-1 returns the inverse permutation; entries out of range never cause a write outside the output.",
  "every index array of every length",
  "all permutations of all lengths",
  ["src/Merge.cpp: ReverseShuffleMT, ReverseShuffle"])
p("C09", "searchsorted(left/right) matches its definition on sorted bins",
  "On ascending bins, searchsorted(left) returns the number of bins strictly below the value and searchsorted(right) the number of bins less than or equal to it, for every value.",
  "every sorted bin array (duplicates allowed) of every size, every value",
  "binary-search boundary errors depend on sizes and duplicate layout",
  ["src/Bins.cpp: SearchSortedRight, SearchSortedLeft"])
p("C10", "Cutting values into bins puts every value in the right bin",
  "For strictly ascending bin edges e_0 < ... < e_{k-1}, a value v is assigned bin b >= 1 iff e_{b-1} < v <= e_b (the first edge itself belongs to bin 1); values below the first edge, above the last one, or invalid get bin 0.",
  "every edge array, every value, integers and floats",
  "binary-search boundary conditions over all sizes",
  ["src/Bins.cpp: MakeBinsBSearch, MakeBinsBSearchFloat"])
p("C11", "Group-by reductions compute the per-group reduction of exactly the group's rows",
  "For each group id in the requested range, sum, nansum, min, max, nanmin, nanmax and count over the bins return the reduction over exactly the rows whose key is that id, with the documented invalid handling (an invalid row poisons sum/min/max, is skipped by the nan variants, and an empty group has the documented default).",
  "every key array, every value array, every number of groups",
  "the invalid handling is order dependent state per group",
  ["src/GroupBy.cpp: AccumSum, AccumNanSum, AccumMin, AccumMax, AccumNanMin, AccumNanMax, ACCUM_INNER_LOOP"])
p("C12", "Group-by over bands of groups equals the sequential group-by",
  "Splitting the groups into bands processed by different threads gives exactly the sequential result, for every band split and every execution order.",
  "every band partition, every thread order, every input",
  "all interleavings and all splits",
  ["src/GroupBy.cpp: BandedGroupByCall, GroupBySingleOpMultiBands"])
p("C13", "Scatter/gather group-by equals the sequential group-by",
  "Splitting the rows into blocks accumulated into per-core buffers and gathering the buffers afterwards gives exactly the sequential result, for every assignment of blocks to cores, for sum, nansum, min, max, nanmin, nanmax over integers.",
  "every assignment of row blocks to cores, every input",
  "depends on which core ran which block",
  ["src/GroupBy.cpp: ScatterGroupByCall, GroupBySingleOpMultithreaded, GatherSum, GatherNanSum, GatherMin, GatherMax, GatherNanMin, GatherNanMax"])
p("C14", "The packed group layout is a stable grouped permutation of the rows",
  "GroupFromBinCount(keys, ncount) returns iGroup and iFirst such that iGroup is a permutation of the row numbers, the slice of length ncount[g] starting at iFirst[g] lists exactly the rows with key g in ascending order, and iFirst is the exclusive running sum of ncount; the threaded version gives the same arrays.",
  "every key array with keys in range, every thread split and schedule",
  "shared cursor array iFirst is mutated by several threads; correctness needs disjointness of bands for every split",
  ["src/MultiKey.cpp: MakeiGroup, GroupFromBinCount, GroupFromBinCountParallel"])
p("C15", "BinCount equals the histogram of the keys, threaded or not, packed or not",
  "BinCount(keys, n) returns for each bin the number of rows with that key; with pack=True it also returns iFirst and iGroup that satisfy C14, independent of the number of cores and the row split.",
  "every non-empty key array and positive number of bins (others are rejected with an error), every number of cores, every split of rows over cores",
  "depends on per-core counts and on a two-dimensional running sum",
  ["src/MultiKey.cpp: BinCountAlgo, InternalBinCount, BinCount, MakeiGroup2"])
p("C16", "first, last and nth of a group return the group's own rows",
  "Given a packed layout, first/last/nth(k) of a group returns the value at the group's first/last/k-th row (negative k counts from the end) and the invalid value when the group has no such row.",
  "every packed layout, every k including negative, every group including empty ones",
  "off-by-one at group ends only shows for particular group sizes",
  ["src/GroupBy.cpp: AccumNth, AccumFirst, AccumLast"])
p("C17", "IsMember is exact: found iff present, index of the first occurrence",
  "ismember(a, b) returns for each a[i] whether a[i] occurs in b, and the index of its first occurrence in b (the invalid index when absent), whatever the hash function does and however many collisions occur.",
  "every pair of arrays, every hash function, every table size above the number of distinct values",
  "hash collisions and wrap-around of the probe sequence for arbitrary data",
  ["src/HashLinear.cpp: CHashLinear::MakeHashLocation, IsMember, IsMemberMK, InternalGetLocation, InternalSetLocation, IsMemberFloat"])
p("C18", "Hash group-by numbers groups by first appearance and groups exactly the equal keys",
  "groupby(keys[, filter]) gives two unfiltered rows the same group id iff their keys are equal, numbers groups 1,2,3,... in order of first appearance, reports the first row of each group, and gives filtered-out rows id 0.",
  "every key array, every filter, every hash function and collision pattern",
  "collision chains and wrap-around for arbitrary data",
  ["src/HashLinear.cpp: GROUPBY_INNER_LOOP, GroupByItemSize, CHashLinear::GroupBy, GroupByFloat", "src/HashLinear.cpp: GroupByInternal"])
p("C19", "Next/previous-occurrence arrays link exactly the equal keys",
  "MakeiNext(keys, n, mode) returns for each row the next (or previous) row with the same key, or the invalid index when there is none.",
  "every key array and every number of groups",
  "needs every pair of rows considered",
  ["src/MultiKey.cpp: MakeNextKey, MakeiNext"])
p("C20", "As-of merge finds the closest preceding (following) row with the same key",
  "merge-asof backward returns for each left row the last right row with the same key whose time is <= (or <, if exact matches are disallowed) the left time; forward returns the first right row with time >= (or >); the invalid index when none exists.",
  "every pair of time-sorted tables, every key multiset",
  "two cursors and a hash of last-seen rows over arbitrary interleavings of times",
  ["src/HashLinear.cpp: FindLastMatchMK, FindNextMatchMK, FindLastMatchCategorical, AlignHashMK32, MergeBinnedAndSorted"])
p("C21", "Index sort returns a stable sorted permutation with NaN last",
  "The merge argsort returns a permutation of the row numbers such that the values are non-decreasing (non-increasing for descending), invalid floats come last in both directions, and rows with equal values keep their original order.",
  "every array of every length and content",
  "stability and permutation over all inputs",
  ["src/Sort.cpp: COMPARE_LT, amergesort0_, amergesort0_float, single_amergesort, SortIndex"])
p("C22", "The eight-way parallel merge sort equals the sequential merge sort for every schedule",
  "The parallel sort performs each merge exactly once, only after both halves are sorted, and yields the same index array as the sequential stable sort for every order in which threads finish.",
  "every length, every interleaving of the eight sort jobs and their merge steps",
  "the buddy-bit protocol is schedule dependent",
  ["src/Sort.cpp: ParMergeThreadCallback, ParMergeMerge, par_amergesort"])
p("C23", "LexSort orders rows lexicographically",
  "LexSort([k1,...,km]) returns the stable permutation that orders rows by km first, then k(m-1), ..., k1, each ascending or descending as requested, ties keeping row order.",
  "every number of key columns, every content, every mix of directions",
  "relies on stability of every pass for all inputs",
  ["src/Sort.cpp: LexSort, SortIndex"])
p("C24", "IsSorted answers exactly whether the array is sorted",
  "IsSorted(a) is true iff a is non-decreasing, where trailing NaNs are allowed for floats.",
  "every array",
  "all inputs and all positions of NaN",
  ["src/Sort.cpp: IsSorted, IsSortedFloat, IsSortedString"])
p("C25", "Grouping from a sort order yields exactly the runs of equal keys",
  "GroupFromLexSort(index, values) gives equal group numbers iff the values are equal (index sorts the values), first rows and counts of each group, with the same meaning for every item size and every base index.",
  "every value array, every item size, every base index",
  "byte comparison is specialised per item size",
  ["src/Sort.cpp: GroupIndexStep2, GroupIndexStep2String, BINARY_LT, GroupFromLexSortInternal"])
p("C26", "Type conversion maps invalid to invalid and valid to the same number when it fits",
  "Converting between numeric types maps the source type's invalid value to the destination type's invalid value and every other value to the numerically equal value when the destination can represent it.",
  "every value of every integer type pair",
  "must hold at every extreme value",
  ["src/missing_values.h: invalid_for_type", "src/missing_values.h / rt_math.h: cast_nan_aware", "src/Convert.cpp: ConvertBase::OneStubConvert"])
p("C27", "Parsed dates and times denote the right instant",
  "Parsing a well-formed date or time string returns the nanoseconds since the epoch (or midnight) of that calendar instant; malformed text returns the invalid value 0 and never reads past the end of the string.",
  "every string of every length",
  "every calendar date and every malformed string",
  ["src/DateTime.cpp: YearToEpochNano, ParseDateTimeString, DateTime conversions"])
p("C28", "The table-driven CRC64 equals the bitwise CRC64",
  "The checksum computed by the slicing-by-8 loop equals the bit-at-a-time definition of CRC-64 with the ECMA polynomial, for every buffer; it is also incremental over concatenation.",
  "every byte buffer of every length",
  "equality of two algorithms over all inputs",
  ["src/CRC32.cpp: CalculateCRC64, crc64 table initialisation"])
p("C29", "The array recycler never hands out an array that is still in use",
  "Recycling never returns the same array object to two callers, only returns arrays nobody else references, of the requested type and size, and never loses more than it holds: every array put in is either handed out once, freed once, or still held.",
  "every sequence of allocate, free, collect and reference operations",
  "histories of ring-buffer operations of any length",
  ["src/Recycler.cpp: RecycleFindArray, FinalizeNumpyArray, GarbageCollect, AllocateNumpyArray"])
p("C30", "Workspace allocations do not overlap while outstanding",
  "Two workspace buffers that are allocated and not yet freed never share memory, and a buffer is never freed while outstanding.",
  "every sequence of workspace allocations and frees",
  "histories of allocation/free calls, mode toggles and sizes",
  ["src/Recycler.cpp: WorkSpaceAllocLarge, WorkSpaceFreeAllocLarge, WorkSpaceAllocSmall, WorkSpaceFreeAllocSmall"])
p("C31", "Saved files load back to the saved arrays, also by section",
  "Reading back an SDS file returns for every stored array the same bytes, shape and type that were saved; names and section offsets resolve to the array stored under them.",
  "every list of arrays of every size and every section layout",
  "layout arithmetic for all sizes",
  ["src/SDSFile.cpp: SDS_FILE_HEADER, block/band layout, section names", "src/SDSFile.h"])
p("C32", "Time-window sums add exactly the rows within the window",
  "TimeWindowSum(values, times, d) on ascending times returns at row i the sum of values[j] for j <= i with times[i]-times[j] within the distance.",
  "every ascending time array, every distance",
  "two-cursor loop over arbitrary gaps",
  ["src/TimeWindow.cpp: TimeWindowBase::TimeWindowSum, TimeWindowProd"])
p("C33", "Record-array to column conversion copies every field of every record",
  "RecordArrayToColMajor copies for every record and field the bytes from the strided record layout to the column arrays, for every chunking, and writes nothing else.",
  "every record size, field layout, row count",
  "address arithmetic over all layouts",
  ["src/TileRepeat.cpp: ConvertRecArray, RecordArrayToColMajor"])
p("C34", "Rolling window reductions equal their window definition",
  "rolling_sum/mean/nansum(a, w)[i] equals the sum/mean over the last min(w, i+1) elements; rolling_var uses one divisor convention for all full windows.",
  "every array, every positive window",
  "sliding add/subtract over all window positions",
  ["src/Ema.cpp: EmaBase::RollingSum, RollingNanSum, RollingMean, RollingVar"])
p("C35", "Rolling quantile maintains two heaps that split the window at the quantile",
  "After every update the structure holds exactly the valid elements of the window, every element of the max-heap is <= every element of the min-heap, the heap sizes follow the quantile index, and the reported value is the quantile of the window.",
  "every data stream, window, quantile",
  "histories of pushes, pops and heap moves",
  ["src/Heap.h: Heap, RollingQuantile", "src/Ema.cpp: RollingQuantile"])
p("C36", "The log queue delivers every accepted message once in order",
  "Messages pushed to the logging queue are popped exactly once, in push order, and a cancelled wait terminates the consumer.",
  "every interleaving of producers and the consumer",
  "condition-variable interleavings",
  ["src/logging/waiting_deque.h: waiting_deque", "src/logging/logging_service.h"])
p("C37", "Bit counting counts the set bits of the two's-complement representation",
  "bitcount(x) is the number of one bits in the fixed-width representation of x.",
  "every integer of every width",
  "all 2^64 values",
  ["src/BitCount.cpp: bitcount functions"])
p("C38", "NaN-passing min/max return NaN iff an operand is NaN",
  "The NaN-propagating minimum/maximum of two values is NaN iff either is NaN and otherwise the smaller/larger operand; folding it over an array does not depend on order or grouping.",
  "every pair, every array and every grouping of the reduction",
  "all special values and all split points",
  ["src/rt_math.h: min_with_nan_passthru, max_with_nan_passthru", "src/missing_values.h"])
p("C39", "Rows re-indexed by cut-offs stay inside their own partition",
  "ReIndexGroups/ReMapIndex translate each index by its partition's offsets, keep invalid and negative entries as they are, and never produce an index outside its partition.",
  "every cut-off array and every index array",
  "interval arithmetic over all partitions",
  ["src/Bins.cpp: ReIndexData, ReMapIndex", "src/Merge.cpp: ReIndexGroupsMT"])
p("C40", "Hash group-by packing links rows into the sorted group order",
  "GroupByPack32 returns the row order, first position and count of each group for the unique keys array, consistent with C14, with filtered rows (group 0) accounted for.",
  "every key array",
  "linked-list traversal over all lists",
  ["src/MultiKey.cpp: GroupByPack32, GroupByPackFixup32, GroupByPackFinal32"])
p("C41", "Cutting with a sort index puts every row in its bin",
  "Given the counts of NaN and infinite values and an index that sorts the values, BinsToCutsSorted gives every row 0 (NaN or infinite), 1 (outside the edges) or one more than the bin whose edges enclose it, and reads nothing outside its arrays.",
  "every value array, every sort index, every strictly ascending edge array",
  "a moving cursor over rows and edges whose edge cases depend on ties and on the end of the edges",
  ["src/Bins.cpp: MakeBinsSorted, NanInfCount"])
p("C42", "Fixed-width strings are compared and binned by their text",
  "STRING_LT, STRING_LTEQ, STRING_GT and STRING_GTEQ compare zero-padded strings of any two widths in lexicographic order of their text, and cutting strings into bins assigns each row the bin of its own text, threaded or not.",
  "every pair of strings, every width, every number of rows and chunks",
  "width differences and chunk starts only matter for particular combinations",
  ["src/Bins.cpp: STRING_LT, STRING_LTEQ, STRING_GT, STRING_GTEQ, MakeBinsBSearchString"])
p("C43", "Group median",
  "The median of a group is the middle of its valid values in order, or the midpoint of the two middle ones, and the invalid sentinel if there are none; sequential and threaded runs agree.",
  "every packed grouping, every column, every number of threads and order of their work",
  "sort position, NaN counts and overflow of the midpoint depend on the data",
  ["src/GroupBy.cpp: AccumMedian, MEDIAN_SPLIT, GroupByAll32"])
p("C44", "Group mode",
  "The mode of a group is a valid value that occurs most often in the group, the least such value, and the invalid sentinel if there are none.",
  "every packed grouping, every column, every number of threads and order of their work",
  "ties and run ends at the group border",
  ["src/GroupBy.cpp: AccumMode"])
p("C45", "Group quantile",
  "The quantile of a group is the midpoint of the order statistics at floor and ceiling of q(n-1) of its n valid values; the positions read always lie inside the group.",
  "every quantile 0 <= q <= 1, every packed grouping, every column, every number of threads and order of their work",
  "the positions come from rounded floating-point arithmetic",
  ["src/GroupBy.cpp: AccumQuantile1e9Mult, QUANTILE_SPLIT"])
p("C46", "Group trimmed mean",
  "The trimmed mean of a group is the mean of its valid values between the ntrim-th smallest and the ntrim-th largest one.",
  "every packed grouping, every column, every number of threads and order of their work",
  "partial selection leaves the values in an order that depends on the algorithm",
  ["src/GroupBy.cpp: AccumTrimMeanBR, trimmean"])
p("C47", "Rolling sums and means within groups",
  "For each row, the rolling (nan)sum and (nan)mean cover the row and the rows before it in its group that lie in the window; rows of group 0 get the invalid sentinel.",
  "every packed grouping, every column, every window",
  "priming and steady-state loops over permuted rows, subtraction of leaving values",
  ["src/GroupBy.cpp: AccumRollingSum, AccumRollingNanSum, AccumRollingMean, AccumRollingNanMean"])
p("C48", "Rolling count, shift and difference within groups",
  "For each row, the rolling count is its position in the group, the shift is the value the window's number of rows before (or after) it in its group, the difference is relative to that value; rows without such a neighbour get the invalid sentinel.",
  "every packed grouping, every column, every positive or negative window",
  "windows larger than the group and negative windows",
  ["src/GroupBy.cpp: AccumRollingCount, AccumRollingShift, AccumRollingDiff"])
p("C49", "In-place sort",
  "Sort and SortInPlace leave a permutation of the items in non-decreasing order of the array's type, for each of the three algorithms.",
  "every array of every supported type, every algorithm",
  "pivot choices, depth limits and small-range cut-overs are only exercised by adversarial inputs of some size",
  ["src/Sort.cpp: SortArray, quicksort_, heapsort_, mergesort_, mergesort_float"])
p("C50", "Partitioned lexsort",
  "With cutoffs, LexSort returns for each partition the stable sort of the partition's rows, as row numbers relative to the partition, and respects a given index.",
  "every list of cutoffs, every number of columns, every number of threads and order of their work",
  "partitions are sorted by several threads into one array",
  ["src/Sort.cpp: LexSort32or64, SortIndex32, par_amergesort"])
p("C51", "Order of strings and raw items",
  "Strings and raw fixed-size items are compared by their bytes in order, for each size; descending is the reverse of ascending.",
  "every item size, every pair and triple of items, both directions",
  "word-at-a-time comparison with special cases for trailing bytes",
  ["src/Sort.cpp: STRING_LT, UNICODE_LT, VOID_LT"])
p("C52", "Membership of categoricals",
  "Matching the categories of two categoricals gives each category of the first the number of the first equal category of the second, or 0; the fix-up then returns for each row of the first the first row of the second with the same category, or the invalid index.",
  "every pair of category arrays, every pair of bin arrays, both base indexes",
  "first occurrences are found through a reverse map that is abandoned once all categories were seen",
  ["src/HashLinear.cpp: IsMemberCategorical, IsMemberHashCategorical", "src/HashFunctions.cpp: FindFirstOccurence, FinalMatch, IsMemberCategoricalFixup"])
p("C53", "Sizes and links of hashed groups",
  "GroupBySuper and Unique return the first row and the number of rows of each group; GroupBySuper links each row to the next row of its group, filtered rows among themselves.",
  "every list of keys, every filter, every hash function, every table with room for the distinct keys",
  "collisions interleave the probe sequences of different groups",
  ["src/HashLinear.cpp: GroupBySuper, Unique"])
p("C54", "Rolling group numbers",
  "Successive calls of MultiKeyRolling on one table number the groups in order of first appearance over all calls and give each row its running count in its group.",
  "every sequence of batches, every hash function, every table with room for the distinct keys",
  "the state lives in a hash table kept from call to call",
  ["src/HashLinear.cpp: MultiKeyRolling"])
p("C55", "Group columns of MultiKeyHash",
  "MultiKeyHash returns for each row its group number, running count, group size, and the previous, next, first and last row of its group; filtered rows take no part.",
  "every list of keys, every filter, every hash function, every table with room for the distinct keys",
  "seven columns filled in two passes through links between rows",
  ["src/HashLinear.cpp: MakeHashLocationMultiKey", "src/MultiKey.cpp: MultiKeyHash"])
p("C56", "Rows made of several key columns",
  "Two rows of a multi-key array have the same bytes iff they agree in every column.",
  "every number of columns of every item size, every pair of rows",
  "columns are rotated in blocks, with special cases per item size",
  ["src/MultiKey.cpp: RotateArrays"])
p("C57", "Conversion of strided arrays",
  "ConvertSafe and ConvertUnsafe of an array of any shape and strides return an array of the same shape whose item at every index is the conversion of the input's item at that index.",
  "every shape, every strides, every index",
  "the layout is guessed from the strides; unusual shapes take paths of their own",
  ["src/Convert.cpp: ConvertSafeInternal", "src/Convert.cpp: ConvertUnsafeInternal", "src/RipTide.cpp: GetStridesAndContig"])
p("C58", "Joining arrays of different types",
  "HStack returns the items of the arrays in order, each converted to the common type with invalid values kept invalid; the common type chosen holds every number of each of the types.",
  "every list of arrays of every numeric type, every order in which the threads write",
  "the common type depends on every combination of types; threads write at different offsets",
  ["src/Convert.cpp: HStack", "src/Convert.cpp: HomogenizeArrays", "src/Convert.cpp: GetUpcastDtype"])
p("C59", "Assignment under a boolean mask",
  "SetItem and PutMask store the value for every row whose mask is set, converted like ConvertSafe, and leave every other row unchanged.",
  "every array, mask and values, every order in which the threads write",
  "the mask is summed in vectors and chunks; chunks of values are assigned by the sums",
  ["src/Convert.cpp: PutMask", "src/Convert.cpp: SetItem", "src/Convert.cpp: SumBooleanMask"])
p("C60", "Group numbers combined with a filter",
  "CombineAccum1Filter renumbers the groups of the rows that pass the filter 1, 2, ... in order of first appearance, gives 0 to all other rows, and returns the first row of each group; CombineFilter keeps the group number of rows whose filter is set and gives 0 to the others.",
  "every array of group numbers of every integer width, every filter, every maximum",
  "renumbering depends on the order of first appearance among rows that pass; first rows are stored in 32 bits",
  ["src/Convert.cpp: CombineAccum1Filter", "src/Convert.cpp: CombineFilter"])
p("C61", "Two group numbers combined into one",
  "CombineAccum2Filter gives two rows that pass the filter the same bin iff both of their group numbers agree, all bins are at least 0 and less than (max1+1)*(max2+1), and rows that fail the filter get bin 0.",
  "every pair of arrays of group numbers, every filter, every order in which the threads write",
  "collisions depend on the values; the result's type depends on the product of the maxima",
  ["src/Convert.cpp: CombineAccum2Filter"])
p("C62", "First and last row of each group",
  "MakeiFirst and MakeiLast return for each group the first (last) row that belongs to it and passes the filter, or the invalid value if there is none.",
  "every array of group numbers, every filter, every maximum",
  "needs every combination of filtered and out-of-range group numbers",
  ["src/Convert.cpp: MakeiFirst"])
p("C63", "Shifting arrays in place",
  "ShiftArrays by k moves row i+k to row i of every array for which that row exists, leaves the other rows unchanged, and touches no memory outside the array.",
  "every shape in C and Fortran order, every positive and negative k",
  "overlapping moves; the shape and order decide what is moved",
  ["src/Convert.cpp: ShiftArrays"])
p("C64", "Trailing spaces and widening of strings",
  "RemoveTrailingSpaces replaces exactly the trailing blanks of each string by zeros; converting strings to a larger width appends zeros to each string and changes nothing else.",
  "every number of strings of every width, bytes and unicode",
  "strings without a terminator touch their neighbours",
  ["src/Convert.cpp: RemoveTrailingSpaces", "src/Convert.cpp: ConvertSafeStringCopy"])
p("C65", "Running sums and products restart at resets and stay in their group",
  "For EmaAll32 with cumsum or cumprod, every row of a group holds the sum (product), in row order, of the included values of its group since the last included row whose reset flag is set, up to the row itself; rows of no group (key below 1) hold the invalid of the output type.",
  "every key array within the number of groups, every column of its length, with and without include and reset masks",
  "four loops per function, one per combination of masks, over interleaved groups",
  ["src/Ema.cpp: CumSum, CumProd"])
p("C66", "FindNth numbers the rows of each group",
  "For arrays of fewer than 2^31 rows, FindNth gives each included row its ordinal among the included rows of its group, and 0 to rows that are excluded or belong to no group.",
  "every key array and include mask",
  "counters per group over interleaved groups",
  ["src/Ema.cpp: FindNth"])
p("C67", "Running minima and maxima",
  "cumnanmin/cumnanmax give each row an extreme of the valid included values of its group since the last reset, invalid if there is none; cummin/cummax become invalid at the first invalid value until the next reset; rows of no group are invalid.",
  "every key array, column, order and masks",
  "four loops per function; invalid values interact with resets",
  ["src/Ema.cpp: CumNanExtreme, CumExtreme"])
p("C68", "Exponentially decayed sums",
  "EmaDecay gives row i the sum over the included rows j of its group since the last reset of value(j) * exp(-rate * (time(i) - time(j))).",
  "every key array, column, time array, rate and masks",
  "the code updates a sum per group; the closed form needs an induction over the rows",
  ["src/Ema.cpp: EmaByBase::EmaDecay"])
p("C69", "Exponential moving averages",
  "EmaNormal (EmaWeighted) gives the first row of a group, and every row that resets it, its own value, and every later row value * (1 - w) + previous average * w with w = exp(-rate * elapsed time) (w the given weight); rows that are not included do not influence any result.",
  "every key array, column, time array, rate and masks",
  "initial values are filled in by a separate backward loop; time differences may overflow",
  ["src/Ema.cpp: EmaByBase::EmaNormal, EmaByBase::EmaWeighted"])
p("C70", "EmaAll32 stays inside its arrays",
  "For every argument list that EmaAll32 accepts, all reads and writes stay inside the columns, masks, times, work space and output, and the element type written is the element type of the allocated output.",
  "every function, column type, time type, key array and column length that passes the checks",
  "needs arrays with foreign keys, short columns or long double times",
  ["src/Ema.cpp: EmaAll32, GetEmaByFunction, GetEmaByStep2"])
p("C71","InterpExtrap2d interpolates linearly between the points of each row",
"interpextrap2d(x, xp, yp, clip) with points of strictly increasing xp returns, for each x, the value of the line through the two points around it; below the first or above the last point the first or last line is extended, or with clip the value of the end point is returned; a NaN gives a NaN. With two dimensional xp and yp each x uses its own row.",
"all lengths of x, all numbers of points from two, every strictly increasing xp, every order of the worker threads",
"the value above the last point of the last row needs an out of bounds read which returns the right result on most heaps; a test sees no failure",
["src/Ema.cpp:InterpExtrap2d","src/Ema.cpp:mat_interp","src/Ema.cpp:mat_interp_extrap"])
p("C72","Disabling logging handles what was logged and can be undone",
"After EnableLogging, DisableLogging returns, every record whose log call returned before DisableLogging was called has been handled exactly once and in the order logged, and a later EnableLogging starts logging again.",
"every interleaving of any number of logging threads, the handler, the flusher and the caller of disable; every batch size from one",
"the loss needs a push between two reads of the handler; no test schedules threads that finely",
["src/logging/logging_service.h:disable","src/logging/logging_service.h:active","src/Logger.cpp:LoggingHandler","src/Logger.cpp:EnableLogging"])
p("C73","Reduce sums an array",
"Reduce(a, REDUCE_SUM) returns the sum of the elements of the array and Reduce(a, REDUCE_NANSUM) the sum of the elements that are not invalid (NaN for floating point). REDUCE_SUM of an array with an invalid element returns the 64-bit invalid value (or NaN). The result does not depend on how many threads work on it.",
"all array lengths, all integer and floating-point element types, every division of the blocks among the worker threads",
"the sums differ only for huge totals, and only in some schedules of the worker threads",
["src/Reduce.cpp:ReduceInternal","src/Reduce.cpp:ReduceAddSlow","src/Reduce.cpp:ReduceAddF32","src/Reduce.cpp:ReduceAddI32","src/Reduce.cpp:ReduceAddD64","src/Reduce.cpp:ReduceNanSum","src/Reduce.cpp:WorkScatterGatherCall"])
p("C74","Reduce computes mean, variance and standard deviation",
"Reduce with REDUCE_MEAN, VAR or STD returns the mean, the variance with ddof degrees of freedom taken off (NaN if not enough remain) or its square root; the NAN variants do so for the elements that are not NaN and return NaN if there are none; the plain ones return NaN if an element is NaN.",
"all array lengths, all values, every ddof, every division of the blocks among the worker threads in each of the two passes",
"the wrong results need huge intermediate sums and a particular schedule",
["src/Reduce.cpp:ReduceInternal","src/Reduce.cpp:ReduceVar","src/Reduce.cpp:ReduceVarF32","src/Reduce.cpp:ReduceNanVariance"])
p("C75","Reduce finds the minimum and the maximum",
"Reduce with REDUCE_MIN or REDUCE_MAX of a non-empty array returns its least or greatest element, or the invalid value if one of its elements is invalid; REDUCE_NANMIN and REDUCE_NANMAX return the least or greatest valid element, or the invalid value if there is none.",
"all array lengths and values of the integer types and of floating point, every division of the blocks among the worker threads",
"the vector kernels treat full and partial chunks differently and the gathering step depends on which cores got work",
["src/Reduce.cpp:ReduceMin","src/Reduce.cpp:ReduceMax","src/Reduce.cpp:ReduceNanMin","src/Reduce.cpp:ReduceNanMax","src/Reduce.cpp:WorkScatterGatherCall"])
p("C76","Reduce finds the position of the minimum and the maximum",
"Reduce with REDUCE_ARGMIN or REDUCE_ARGMAX of a non-empty array returns the position of its first invalid element, or if it has none, of the first of its least or greatest elements; the NAN variants return the position of the first least or greatest valid element and raise ValueError if there is none.",
"all array lengths and values",
"ties and invalid elements in every position cannot be enumerated",
["src/Reduce.cpp:ReduceArgMax","src/Reduce.cpp:ReduceArgMin","src/Reduce.cpp:ReduceNanargmax","src/Reduce.cpp:ReduceNanargmin"])
p("C77","Reduce reads the elements of the array",
"Reduce either returns None (the reduction is left to numpy) or reads each element of the array exactly once and no other memory, whatever its dimensions and strides.",
"all numbers of dimensions, all dimensions and strides",
"slices of arrays in Fortran order give plausible wrong numbers",
["src/Reduce.cpp:Reduce","src/Reduce.cpp:ReduceInternal"])
p("C78","Comparisons compare the numbers",
"The six comparisons of two arrays of the same length, of an array and a Python scalar, or of an array and an array with one element return an array of bools of the same length; element i tells whether the relation holds between the numbers at position i, for every pair of integer or floating-point types; NaN differs from everything and is not ordered.",
"all lengths, all values of all types of integers and floats, every division of the blocks among the worker threads",
"each pair of types has its own kernel and conversion, and the wrong answers need particular values at the ends of the ranges",
["src/Compare.cpp:GetComparisonOpFast","src/Compare.cpp:CompareAny","src/Compare.cpp:CompareInt64","src/Compare.cpp:CompareInt32S","src/Compare.cpp:CompareInt32","src/Compare.cpp:CompareInt16","src/Compare.cpp:CompareInt8","src/Compare.cpp:CompareFloat","src/Compare.cpp:CompareDouble","src/BasicMath.cpp:WorkTwoStubCall"])
p("C79","Arithmetic and bitwise operations on two operands",
"+ - * / // % minimum, maximum, the bitwise and logical operations and differences of dates, on two arrays of the same length or an array and a Python scalar, into a new array or in place, give at each position the result for the two elements: for integers the exact result modulo the size of the smallest type that holds both, with x // y * y + x % y == x; for floats the real result rounded once, and NaN if an operand is NaN; / of integers gives the nearest double; no value of the operands stops the process.",
"all lengths, all values of all types of integers and of float32 and float64, every address of the output array, every division of the blocks among the worker threads",
"each operation has its own vector kernel per type, with separate code for scalars on either side, for the rest of a vector and for the unaligned start of an array in place",
["src/BasicMath.cpp:SimpleMathOpFast","src/BasicMath.cpp:SimpleMathOpFastSymmetric","src/BasicMath.cpp:SimpleMathOpFastReverse","src/BasicMath.cpp:SimpleMathOpSlow","src/BasicMath.cpp:SimpleMathOpFastDouble","src/BasicMath.cpp:GetSimpleMathOpFast","src/BasicMath.cpp:GetSimpleMathOpSlow","src/BasicMath.cpp:FloorDivOp","src/BasicMath.cpp:SubDateTimeOp","src/BasicMath.cpp:CheckMathOpTwoInputs"])
p("C80","Operands keep their numbers",
"Before an operation on two operands they are converted to a common type; the conversion changes no number: each element and each scalar has the same value in the common type, or the operation is left to numpy.",
"all pairs of integer and floating-point types, all values, Python integers of any size, arrays of one element in place of a scalar, with or without output array",
"the tables that choose the type depend on the number of bits of the scalar; only some values at the boundaries go wrong",
["src/BasicMath.cpp:CheckInputsInternal","src/BasicMath.cpp:CheckUpcast","src/BasicMath.cpp:PossiblyUpcast","src/RipTide.cpp:GetUpcastType","src/RipTide.cpp:ConvertScalarObject","src/RipTide.cpp:ConvertSingleItemArray"])
p("C81","An output array accepted for an operation on two operands receives exactly the result",
  "When an arithmetic operation or comparison on two one-dimensional operands is given an output array and that array is used, then for any distribution of the work over threads and any interleaving, every output item is the operation on the operands' items as they were before the call, and no byte outside the output items changes, even when the output shares memory with an operand.",
  "for all operands, output arrays, memory contents, numbers of items and interleavings of chunks",
  "The result depends on overlapping addresses, item sizes and thread interleavings, which tests cannot enumerate.",
  ["src/BasicMath.cpp:CheckOutputs","src/BasicMath.cpp:TwoInputsInternal"])
p("C82","Operations on two arrays pair items with the same index and keep the shape",
  "When an arithmetic operation or comparison on two arrays of several dimensions is not left to numpy, the result has the broadcast shape, and its item at each index is the operation on the items of the operands at that index, for every memory layout of the operands.",
  "for all dimensions, strides, item sizes and memory contents",
  "Layouts vary over dimensions, strides and orders; a few shapes in tests miss the layouts where only the first stride is looked at.",
  ["src/BasicMath.cpp:CheckInputsInternal","src/BasicMath.cpp:CheckOutputs","src/BasicMath.cpp:TwoInputsInternal"])
p("C83","Where takes the first choice where the condition holds and the second elsewhere",
  "For a boolean condition and two choices, each an array or a scalar, Where returns an array with one item for each item of the condition: the item of the first choice where the condition holds and that of the second elsewhere, strings filled up with zeros; arrays of another length are refused and no memory outside the operands is touched.",
  "for all conditions, choices, item sizes, addresses and memory contents",
  "The second choice is reached through the difference of two addresses; only some addresses, strides and string widths go wrong.",
  ["src/BasicMath.cpp:Where","src/BasicMath.cpp:WhereCallback","src/BasicMath.cpp:WhereCallbackString"])
p("C84","Operations on one array give at each position the result for the item there",
  "Absolute value, sign, negation, bitwise not, floor, ceil, trunc, round and square root of an array give at each position the mathematical result for the item there (for integers modulo 2^bits, square roots rounded to nearest), NaN for NaN and the invalid value for the invalid value, whatever the alignment, stride and length of the array and its division among threads.",
  "for all arrays of bool, integer and float types, alignments, strides, blocks and positions",
  "The vector and the scalar code of one operation run on different items of one array, depending on its address and length; a value is in general tested in one of them only.",
  ["src/UnaryOps.cpp:UnaryOpFast","src/UnaryOps.cpp:GetUnaryOpFast","src/UnaryOps.cpp:GetUnaryOpSlow","src/UnaryOps.cpp:ProcessOneInput"])
p("C85","The tests for NaN, infinity, normal numbers, zero and invalid values are right for every type",
  "isnan, isnotnan, isfinite, isnotfinite, isinf, isnotinf, isnormal, isnotnormal, isnanorzero and logical_not give a boolean array that is True exactly at the items with the property; for integers the invalid value of the type counts as NaN, for strings the empty string.",
  "for all arrays of bool, integer, float and string types, alignments, strides, blocks and positions",
  "The vector code masks exponent bits and looks booleans up by a bit mask of eight or four lanes; subnormal numbers, infinities and NaN in every lane are not covered by tests.",
  ["src/UnaryOps.cpp:UnaryNanFastFloat","src/UnaryOps.cpp:UnaryFiniteFastDouble","src/UnaryOps.cpp:UnaryOpSlow_ISINVALID","src/UnaryOps.cpp:GetUnaryOpSlow"])
p("C86","Roots, logarithms and exponentials of integer arrays are those of the items",
  "sqrt, cbrt, log, log10, exp and exp2 of an array of integers give at each position the double that the function has for the item there, converted to the nearest double, and NaN for the invalid value; log, log10, exp and exp2 of floats give the value in the same type.",
  "for all arrays, integer and float types, functions and positions",
  "Large unsigned integers go through the code for signed integers.",
  ["src/UnaryOps.cpp:UnaryOpSlowDouble","src/UnaryOps.cpp:GetUnaryOpSlow"])
p("C87","Operations on one array put each result at the index of its item",
  "An operation on one array gives an array of the same shape whose item at every index is the result for the input's item at that index. With an array given for the result, it stores the result for each item there at the same index and changes nothing else, also when that array is the input or overlaps it; arrays of another shape are refused.",
  "for all shapes, strides, addresses, operations, schedules of threads and indexes",
  "The layout is guessed from the first and last strides; combinations of orders, slices and overlapping arrays are many.",
  ["src/UnaryOps.cpp:ProcessOneInput","src/UnaryOps.cpp:BasicMathOneInput","src/RipTide.cpp:GetStridesAndContig"])
p("C88","StrptimeToNanos reads back the texts that a format makes",
  "For a format of strptime conversions, literal text and spaces that tells the date, and perhaps the time and the offset from UTC, StrptimeToNanos gives for the text that the format makes of a moment, with or without a fraction of a second after it, the nanoseconds from 1970 to that moment in UTC; for a text that does not match the format it gives 0. No text and no format makes it read outside of the text.",
  "for all formats, moments from 1970 to 2099, fractions, texts and cases of letters",
  "The conversions combine freely; numbers follow each other without separators, names are matched in any case, some conversions stand for others.",
  ["src/strptime5.cpp:rt_strptime","src/strptime5.cpp:conv_num","src/strptime5.cpp:find_string","src/DateTime.cpp:ParseStrptime"])
p("C89","IsMember by concurrent hash maps finds each value and its first row",
  "When the environment variable RT_NEW_HASH is 1, IsMember32 of two arrays gives for every value of the first whether it occurs in the second and the first row where it occurs, or the least value of the index type, whatever the order in which the threads divide, store and look up the values. Strings are equal if they are but for zeros at the end, NaN is equal to nothing. It reads nothing outside of the arrays.",
  "for all arrays of integers, floats and strings, of any length, and all orders of the messages between the threads",
  "Beyond a million values the array is divided among several hash maps that threads fill at the same time; the result may depend on who is first.",
  ["src/is_member_tg.h:is_member_tg","src/is_member_tg.h:rangify_func","src/HashLinear.cpp:IsMember32"])
p("C90","Arrays and byte strings compressed in memory come back",
  "CompressDecompressArrays with mode 0 of a list of one-dimensional arrays of one length, and with mode 1 of what that gives, gives the same arrays: type, size of an item, length and bytes; CompressString and DecompressString give back a byte string. This holds for every level, with and without checksums. Arrays without items and empty byte strings come back too, what cannot be compressed is refused with an exception, and decompressing bytes that were not made by compressing raises an exception and reads and writes nothing outside of the arrays.",
  "for all lists of arrays, all byte strings, all levels and modes, and any codec that can undo its compression",
  "The threads, the header put before each frame, and the sizes taken from untrusted bytes make failures that tests with ordinary arrays do not meet.",
  ["src/Compress.cpp:CompressDecompressArrays","src/Compress.cpp:DecompressOneArray","src/Compress.cpp:CompressString","src/Compress.cpp:DecompressString","src/ZstdCompress.cpp:ZstdCompressData"])
p("C91","An array made of a list holds the items of the list",
  "AsAnyArray and AsFastArray of a list of ints, bools, floats, bytes or strings give a one-dimensional array with the items of the list in order: numbers are equal, bytes and strings are equal but for zeros at the end. A scalar becomes an array of one item. Arguments that cannot be used raise an exception. Nothing outside of the new array is written.",
  "for all lists of any length, ints of any size, strings of any lengths, and any contents of new memory",
  "What is left over in new memory is often zero in tests; ints beyond 64 bits and lists of empty strings are rare.",
  ["src/Array.cpp:AsAnyArray","src/Array.cpp:AsFastArray","src/Array.cpp:ConvertUnicode","src/Array.cpp:ConvertBytes","src/Array.cpp:ConvertInt64"])
p("C92","Adding arrays of strings joins the strings",
  "Adding two arrays of bytes or of characters of the same type and shape, or an array and a string of its type, gives an array of the same shape whose items are the items joined; an item ends before the zeros at its end. With an output array the result is stored there. Operands that cannot be joined are left to numpy. Nothing outside of the arrays is read.",
  "for all arrays and strings of any length and all shapes and strides",
  "Strings with zeros inside, matrices in column order and in-place additions are unusual in tests.",
  ["src/BasicMath.cpp:ConcatTwoStrings","src/BasicMath.cpp:ConcatTwoUnicodes","src/BasicMath.cpp:PossiblyAddUnicode","src/BasicMath.cpp:CheckInputsInternal"])
p("C93","Stacking several SDS files gives one dataset with all their rows",
  "Reading several SDS files and stacking them gives one column for every name that appears in a file. A column has the rows of the files one after another, and the offsets say where each file begins. Its type can hold the arrays of all the files: an item of the column is the same number or text as the item of the file, an invalid item stays invalid, and a row of a file without the column is invalid or empty. The result does not depend on how the threads take turns, nor on what the memory held before.",
  "for all numbers of files, columns and rows, all types and widths, all arrays of the same shape but for the rows, and all schedules of the threads",
  "The pairs of types, the orders of the files, missing columns and different widths of texts multiply; tests stack files that are alike.",
  ["src/SDSFile.cpp:DecompressMultiArray","src/SDSFile.cpp:StringFixup","src/SDSFile.cpp:ConvertInplace","src/SDSFile.cpp:GapFill","src/SDSFile.cpp:GapFillAny","src/SDSFile.cpp:RotationalFixup","src/SDSFile.cpp:CopyFromBlockToInfo"])
p("C94","An operation on one array gives the result for every item",
  "process_one_input gives a new array of the shape of the input that holds the result of the operation for every item, or writes the results into the array it is given and nothing else. The result for an item depends only on the item: not on its position, nor on whether it was computed in a register or alone. Tests give an array of bools. The function always returns, and no memory outside of the two arrays is touched.",
  "for all arrays of numbers (any number of items, dimensions and strides), all operations that the function offers, and all given arrays with the right type and length",
  "Items in registers, items behind them and items of arrays with gaps take different paths with different instructions; the tests in the repository use one length per type.",
  ["src/one_input.cpp:process_one_input","src/one_input.cpp:get_type_trait","src/one_input.cpp:get_op_trait","src/one_input_impl.h:walk_data_array","src/one_input_impl.h:perform_operation","src/one_input_impl.h:calculate","src/simd/avx2.h:abs"])
p("C95","Reading an SDS file through a boolean mask gives the rows of the mask",
  "Reading one or several SDS files with a boolean mask gives, for every column, an array that has exactly the rows of the column for which the mask is True, in their order and with every element unchanged; arrays that are not columns are given as they are read without a mask. This holds for arrays stored raw, compressed, or in bands. With the keyword fancy a mask that is longer than the arrays (or, with fancy=False, of another length) is an error. No mask stops the process, and no memory outside of the new arrays is written.",
  "for all boolean masks (any length, number of True elements, and strides), all files with any number of arrays of any shape, size, order and compression, and any number of files",
  "The reader skips bands, decompresses only the beginning of an array, or copies row by row, depending on the mask, the band size and the compressed size; tests use a few masks on small tables in one band.",
  ["src/SDSFile.cpp:DecompressWithFilter","src/SDSFile.cpp:ReadAndDecompressBandWithFilter","src/SDSFile.cpp:ReadAndDecompressArrayBlockWithFilter","src/SDSFile.cpp:PossiblyShrinkArray","src/SDSFile.cpp:ReadIOPackets","src/SDSFile.cpp:DecompressFileInternal","src/SDSFilePython.cpp:GetFilters"])
p("C96","Group variance and standard deviation are those of the rows of each group",
  "GroupByAll32 with the functions var, std, nanvar and nanstd gives in every bin of the requested range the variance with divisor n - 1 (for std and nanstd its square root) of the values of the rows whose key is that bin, computed in two passes: the mean first, then the sum of the squared differences from it. With fewer than two values the result is the invalid value. With var and std one invalid value makes the result of its group invalid; nanvar and nanstd skip invalid values. Bins outside of the range are not written, and no row of another group has any effect. Without rounding the variance is that of the sample: it is not negative, and 0 for equal values.",
  "for all numbers of rows and bins, all keys, all values, every range of bins and every floating point arithmetic (rounding) of the machine",
  "The mean is kept in the output array for most types and in a work array for float32, the count is used as a flag for invalid values, and the work arrays are not initialised by their allocation; tests compare with numpy on a few tables.",
  ["src/GroupBy.cpp:AccumVar","src/GroupBy.cpp:AccumNanVar","src/GroupBy.cpp:AccumStd","src/GroupBy.cpp:AccumNanStd"])
p("C97","A group-by call returns for every column the function's result for each group",
  "GroupByAll32(columns, key, unique, functions, firstbins, lastbins) with one-dimensional columns of numbers or bool, a key of signed integers of the same length, and the functions sum, mean, min, max, var, std and their variants that skip invalid values returns one array per column, of unique + 1 elements and of the type that belongs to the function and the column's type, whose bins in the given range hold the function of the values of the rows whose key is that bin; the columns do not affect each other, and it makes no difference whether and how the rows are divided among the threads. Arguments that do not fit (another kind of key, something that is no array, lists or columns of other lengths, functions or types that are not supported) are refused with an exception; no call writes outside of its arrays or reads memory that was never written.",
  "for all numbers of columns, rows and bins, all keys and values, every function and type, every range of bins inside the array, every way in which the blocks of rows are taken by the threads, every content of uninitialised memory, and every floating point arithmetic",
  "The kernel is chosen by a switch over functions and types with fall-through cases, the threads divide the rows only when there are ten times more rows than bins and only for one column, and what a call clears depends on the range; a test cannot try all combinations of function, type, range and division of the rows.",
  ["src/GroupBy.cpp:GroupByAll32","src/GroupBy.cpp:GetGroupByFunction","src/GroupBy.cpp:GroupBySingleOpMultithreaded","src/GroupBy.cpp:GroupByCall","src/MultiKey.cpp:BuildArrayInfo"])
p("C98","The sections of several SDS files put together in one file are all read back from it",
  "MultiConcatFiles(inputs, output=name) copies the SDS files that exist, one after the other, into the output file, with the offsets in the headers and array blocks moved and one directory of sections written at the end. Every section of every input file (files that were saved, extended by sections, or themselves put together by this function) is read back from the output with its names, meta data and arrays unchanged, in the order of the inputs, from the offset listed in the directory; the other files do not change. With mustexist=True and a missing file, or when no file exists, nothing is written and the call raises. The sections keep their names.",
  "for all codecs, file names, numbers of files, sections, arrays and bytes, and orders of the threads that saved them",
  "tests put two small files together; the offsets only move when a file is not the first one, the sections of an input need a second correction, and the padding between files depends on every size",
  ["src/SDSFile.cpp:AppendToFile","src/SDSFile.cpp:SDSConcatFiles","src/SDSFile.cpp:ReadManyFiles","src/SDSFilePython.cpp:MultiConcatFiles"])
p("C99","A packed group-by call returns the function's result for each group or row",
  "GroupByAllPack32(columns, key, iGroup, iFirst, nCount, unique, functions, firstbins, lastbins, param) with one-dimensional columns of numbers, bool or text and the packed form of the key returns one array per column. For first, nth, last, median, mode, trimmed mean and quantile it has unique + 1 elements, of which those in the range hold the function of the values of that group in the order of the rows; for the rolling sum, mean (also without invalid values), difference, shift, count and quantile it has one element per row, which holds the function of the values of its group up to that row, and rows of group 0 are invalid. Types and functions that do not fit, lists of wrong lengths and columns of wrong lengths are refused; nothing outside the arrays is read or written.",
  "for all numbers of columns, rows and bins, all keys and values, every function, type and parameter, every range of bins inside the array, every order in which the threads write, every content of uninitialised memory, and every floating point arithmetic",
  "The function is chosen by nested switches over functions and types, the output array is allocated in three ways, and one path for more than 65536 rows exists only for one column and four functions; tests use small tables of a few types.",
  ["src/GroupBy.cpp:GroupByAllPack32","src/GroupBy.cpp:GetGroupByXFunction","src/GroupBy.cpp:GetXFunc","src/GroupBy.cpp:GetXFunc2","src/GroupBy.cpp:GetXFuncString","src/GroupBy.cpp:GroupBySingleOpMultiBands","src/GroupBy.cpp:GroupByCall","src/RipTide.cpp:AllocateLikeResize"])
p("C100","Membership finds each value's first row in the other array",
  "IsMember32(a, b[, mode[, hint]]) for arrays of one comparable type (bool, integers, float32, float64, bytes, unicode, void, dates, spans) returns one flag per element of a, true exactly if an equal element is in b, and an index array whose element is the first row of b with that value, or the least value of the index type where there is none. The index type is the smallest that fits the number of rows. Text is compared but for trailing zeros, floats as numbers (NaN is never found). The hint and the strides of the arrays change nothing. Arrays of other types, of different types, of items of no bytes, or of objects are refused with an error.",
  "for all lengths and contents of both arrays, all item types and widths, both hash modes, every hint, every order in which the threads write, and every hash function",
  "The call picks one of eight tables by type, size and width and one of four index types by the number of rows; text of 1, 2, 4 and 8 bytes takes the path of integers. Tests use a few types with short contiguous arrays and no hint.",
  ["src/HashLinear.cpp:IsMember32","src/HashLinear.cpp:IsMemberHash32_impl","src/HashLinear.cpp:IsMemberHashString32Pre","src/HashLinear.cpp:IsMemberMultiThread","src/HashLinear.cpp:equivalent_type","src/TypeSystem.h:normalize_dtype","src/numpy_traits.h:index_size_type"])
p("C101","Categorical membership numbers each value by its first row in the other array",
  "IsMemberCategorical(a, b, mode[, hint]) for arrays of one comparable type returns for each element of a the first row of b with an equal value plus 1, or 0 if there is none, and a flag that is set exactly if some element has none. Arrays of other types, of different types, of items of no bytes, or of objects are refused with an error. Neither the mode, nor the hint, nor the strides or lengths of the arrays change this.",
  "for all lengths and contents of both arrays, all item types and widths, both hash modes, every hint, every order in which the threads write, and every hash function",
  "The type of the index is chosen by the length of the first array for numbers and of the second for text, items of one and two bytes have a table without a hash function, and long doubles have a case that does nothing; tests use a few types with short arrays.",
  ["src/HashFunctions.cpp:IsMemberCategorical","src/HashLinear.cpp:IsMemberHashCategorical","src/HashLinear.cpp:IsMemberHashCategorical64","src/HashLinear.cpp:IsMemberCategoricalHashStringPre","src/HashLinear.cpp:IsMemberHashStringCategorical","src/HashLinear.cpp:IsMemberStringCategorical","src/HashLinear.cpp:IMSThreadCallback"])
p("C102","EmaAll32 gives every column its running value by group, from arguments to results",
  "EmaAll32(columns, key, groups, function, (rate, time, include, reset)) returns one array per column, of the type documented for the function, in which row i has the sum, product, count, extreme, decayed sum or moving average of the rows of i's group up to i since its last reset, without the rows that the include mask leaves out. Columns of unsupported types give None, unknown functions and averages without times give None for every column. Wrong key types, parameters, masks, times or columns are refused with an error, and no call reads or writes outside of its arrays.",
  "for all numbers of columns and rows, all supported types of columns, keys and times, all strides, all masks, and every function of the family",
  "The result depends on the product of ten functions, five key types, fourteen column types, ten time types and four mask combinations, and masks, keys and times are read through raw pointers whose strides and lengths are partly unchecked; tests use contiguous arrays of equal length.",
  ["src/Ema.cpp:EmaAll32","src/Ema.cpp:EmaByCall","src/Ema.cpp:GetEmaByFunction","src/Ema.cpp:CumSum","src/Ema.cpp:CumProd","src/Ema.cpp:CumExtreme","src/Ema.cpp:CumNanExtreme","src/Ema.cpp:FindNth","src/Ema.cpp:EmaDecay","src/Ema.cpp:EmaNormal","src/Ema.cpp:EmaWeighted"])
p("C103","LexSort returns the rows in lexicographic order, from arguments to results",
  "LexSort32 and LexSort64(arrays, ascending=, cutoffs=, index=) return the row numbers 0 to n-1 in the order of the arrays, the last array first, each array in the direction given for it, equal rows in their order, NaN last in both directions. With index= the given rows are sorted; with cutoffs= each partition is sorted by itself and rows count from its start. Arrays that are not one-dimensional or differ in length, cutoffs that are not int64 or do not end with the number of rows, directions for another number of arrays and an index of the wrong type or length are refused. No call reads or writes outside of its arrays.",
  "for all numbers and types of arrays, all lengths, all directions, cutoffs and indexes, and every order in which the eight sorting threads or the threads of the partitions step",
  "Above 32768 rows the sort is split among eight workers whose merges can interleave in many ways; tests see one schedule, and use contiguous bool directions, a full index and cutoffs that are not empty.",
  ["src/Sort.cpp:LexSort","src/Sort.cpp:GetCutOffs","src/Sort.cpp:GetAscending","src/Sort.cpp:GetKwargIndex","src/Sort.cpp:SortIndex","src/Sort.cpp:par_amergesort","src/Sort.h:CMultiListPrepare","src/MultiKey.cpp:BuildArrayInfo"])
p("C104","GroupFromLexSort groups the rows that LexSort has sorted, from arguments to results",
  "GroupFromLexSort(index, values, cutoffs=, filter=, base_index=), with the index that LexSort made of some arrays and one item of values for each row, returns a key for each row (equal for two rows exactly if the rows are alike in all arrays, ascending in the order of the rows, counted from the base index), the first row of each group and the number of rows of each group after the number of rows in no group. Rows that are filtered out are in no group. With cutoffs= groups do not cross partitions, and the number of groups up to each partition is returned too. An index that is not int32 or int64 or longer than the values, cutoffs that are not int64 or do not end with the length of the index, a filter of another length and a base index that is no long are refused. The arguments are not changed and no call reads or writes outside of its arrays.",
  "for all indexes, item sizes, values, cutoffs, filters and base indexes, after every schedule of the sort",
  "The grouping trusts the order of the index and compares items by their bytes, with special cases for six item sizes, for base 0 and for partitions; tests use one size, one base and a contiguous index.",
  ["src/Sort.cpp:GroupFromLexSort","src/Sort.cpp:GroupFromLexSortInternal","src/Sort.cpp:GetFilter","src/Sort.cpp:GetBaseIndex","src/Sort.cpp:GetCutOffs","src/Sort.cpp:GroupIndexStep2"])
p("C105","TimeWindow combines the rows of a window of time, from arguments to results",
  "TimeWindow(values, times, func, delta), with an array of numbers and ascending int64 times of the same length, returns for each row the sum (func 0) or product (func 1) of the values of the rows up to it whose times are no more than delta before its own; integers are combined modulo 2^64, the result is int64 or uint64 for integers and has the type of the values for floating point numbers. Arrays of different lengths, times that are not int64 and arguments that are no int64 are refused; other functions and other types give None. No call reads outside of its arrays.",
  "for all arrays of numbers of every length, times, deltas and schedules of the threads",
  "The window of a row is searched backwards in parallel blocks; strides of the two arrays are never looked at; the difference of times may overflow. Tests use contiguous arrays with small times.",
  ["src/TimeWindow.cpp:TimeWindow","src/TimeWindow.cpp:GeTimeWindowFunction"])
p("C106","Rolling computes each row from the last window rows, from arguments to results",
  "Rolling(values, func, window) returns for each row the sum, the sum of the valid values, the mean, the mean of the valid values or a quantile of the valid values of the last window rows up to it, whatever the layout of the array; sums of integers are int64 modulo 2^64, means and quantiles are floating point numbers. Arguments that are no int64 and a quantile of no row are refused; other functions and other types give None. A value that has left the window has no effect, and no call reads outside of its arrays.",
  "for all arrays of numbers of every length and stride, functions, windows and quantiles",
  "Each row is computed from the row before by adding one value and taking one away, so that one bad value or window spoils all later rows; tests compare a few windows of well-behaved numbers.",
  ["src/Ema.cpp:Rolling","src/Ema.cpp:GetRollingFunction","src/Ema.cpp:GetRollingFunction2","src/Ema.cpp:RollingNanMean","src/Ema.cpp:RollingQuantile"])
p("C107","BinsToCutsBSearch searches and cuts, from arguments to results",
  "BinsToCutsBSearch(values, edges, mode) returns for each value the bin of the ascending edges it lies in (mode 0; 0 for a value that lies in no bin, is not finite or stands for a missing value), the number of edges less than it (1) or the number of edges not greater than it (2), in the smallest signed integer type with room for the number of edges, whatever the types and layouts of the arrays and the order in which the threads take the blocks; the same for byte and unicode strings. Other modes and types are refused. No call reads outside of its arrays.",
  "for all arrays of numbers and text, all arrays of edges and modes, and all schedules of the threads",
  "There are 13 types of values times 9 types of edges times 4 types of output times 3 modes; whether an edge survives the conversion to the type of the values depends on the edge.",
  ["src/Bins.cpp:BinsToCutsBSearch","src/Bins.cpp:GetMakeBinsBSearch","src/Bins.cpp:GetMakeBinsBSearchPart2","src/Bins.cpp:MakeBinsBSearchFloat","src/Bins.cpp:SearchSortedLeft","src/Bins.cpp:SearchSortedRight","src/Bins.cpp:MakeBinsBSearchString"])
p("C108","NanInfCountFromSort and BinsToCutsSorted count and cut sorted values, from arguments to results",
  "NanInfCountFromSort(values, index) returns for an index that sorts the values how many of them are NaN, infinite and minus infinite, missing unsigned integers counting as infinite and missing signed ones as minus infinite. BinsToCutsSorted(values, edges, index, counts, mode) with these counts gives each value one more than its bin, 1 if it lies in none, and 0 if it is NaN, infinite or missing. Arrays of two lengths and edges that are not float64 are refused; other types give None. No call reads or writes outside of its arrays.",
  "for all arrays of numbers, sorting indices, edges and counts",
  "The counts are taken from both ends of the sorted values until a value does not match; errors show only for values at the very ends or above the last edge, where memory outside of the edges is read.",
  ["src/Bins.cpp:NanInfCountFromSort","src/Bins.cpp:GetNanInfCount","src/Bins.cpp:NanInfCount","src/Bins.cpp:BinsToCutsSorted","src/Bins.cpp:GetMakeBinsSorted","src/Bins.cpp:MakeBinsSorted"])
p("C109","ReIndex and ReMapIndex look rows up, from arguments to results",
  "ReIndex(index, array) returns the array whose row i is row index[i], of the type of the array, whatever its type and layout and the order in which the threads take the blocks; arrays of two lengths and an index that is not of 32 or 64 bit integers are refused, arrays of objects give None. ReMapIndex(array, out, mapper) writes mapper[array[i]] into element i of out and changes no other memory; a mapper that is not int32 is refused. No call reads or writes outside of its arrays.",
  "for all arrays, indices and mappers of every length, stride and type, and all schedules of the threads",
  "Rows of the index are not compared with the length of the array, nor the lengths of input and output; tests use indices that are in range.",
  ["src/Bins.cpp:ReIndex","src/Bins.cpp:ReIndexer","src/Bins.cpp:ReIndexData","src/Bins.cpp:ReMapIndex","src/Bins.cpp:ReMapIndexStep1"])
p("C110","MultiKeyGroupBy32 groups the rows of its columns, from arguments to results",
  "MultiKeyGroupBy32(columns, hint, filter[, mode], cutoffs=) gives two kept rows the same group number exactly if they agree in every column, numbers the groups from 1 in order of their first rows, gives filtered rows the number 0, and returns the first row of each group and their number; with cutoffs each partition is grouped on its own and the running number of groups is returned too. The numbers are int32 up to 2100000000 rows and int64 beyond. Columns of different lengths, other objects, filters that are not boolean or of another length and wrong cutoffs are refused. No call reads outside of its arrays or ends the process.",
  "for all lists of columns of every type, item size, stride and length, all filters, hints, hash modes and cutoffs, all hash functions and all schedules of the threads",
  "Which hash function runs depends on the types and the summed item sizes of the columns; the layout of the filter and small hints only matter in combinations that tests do not try.",
  ["src/MultiKey.cpp:MultiKeyGroupBy32","src/MultiKey.cpp:CMultiKeyPrepare","src/MultiKey.cpp:BuildArrayInfo","src/MultiKey.cpp:RotateArrays","src/HashLinear.cpp:GroupByImpl","src/HashLinear.cpp:GroupByInternal"])
p("C111","MultiKeyUnique32 and MultiKeyGroupBy32Super count the rows of each group, from arguments to results",
  "MultiKeyUnique32(columns, hint, filter) returns the first row and the number of kept rows of each different row; MultiKeyGroupBy32Super(columns, hint, filter[, mode]) also the group number of each row and the next row of its group. What C110 says of groups and of refused arguments holds. A hint never changes the result and no call has undefined behaviour.",
  "for all lists of columns of every type, item size, stride and length, all filters, hints and hash modes and all hash functions",
  "An exception in the hash table is swallowed or leaves the interpreter lock released; tests do not pass hints that are too small.",
  ["src/MultiKey.cpp:MultiKeyUnique32","src/MultiKey.cpp:MultiKeyGroupBy32Super","src/HashLinear.cpp:Unique32","src/HashLinear.cpp:GroupBy32Super"])
p("C112","MultiKeyHash describes the group of each row, from arguments to results",
  "MultiKeyHash(columns, hint, filter) returns for each row its group number, its running count in the group, the size of the group and the previous, next, first and last row of the group; rows that the filter drops belong to no group.",
  "for all lists of columns of every type, item size, stride and length, all filters and hints and all hash functions",
  "The filter is checked but not used; tests without a filter cannot see that.",
  ["src/MultiKey.cpp:MultiKeyHash","src/HashLinear.cpp:MultiKeyHash32"])
p("C113", "Sort and SortInPlace, from their arguments to their results",
  "For an array of a supported type and a sort mode, Sort returns a new array and SortInPlace leaves in the array a permutation of its elements in non-decreasing order of the type, NaN last, with nothing else in memory changed; both give the same elements; other modes and types are refused.",
  "every array of every supported type with any offset and stride, every mode, every content of uninitialised memory",
  "the result depends on the layout of the array, on the mode and on values that float cannot hold",
  ["src/Sort.cpp: Sort, SortInPlace, SortArray", "src/RipTide.cpp: AllocateNumpyArray"])
p("C114", "SortInPlaceIndirect replaces each key by its place in the index",
  "SortInPlaceIndirect(keys, index) replaces every key k by the position p with index[p] = k and changes nothing else; arrays of other types are refused.",
  "every array of keys and every index, for every combination of int32 and int64",
  "the inverse index is built in memory that is not initialised and read without a check",
  ["src/Sort.cpp: SortInPlaceIndirect"])
p("C115", "IsSorted, from its arguments to its result",
  "IsSorted(a) is true iff the elements of a are in non-decreasing order of the type, where NaNs may follow; text and raw items are compared by their characters; arrays with gaps or of another type are refused; what Sort returns is sorted.",
  "every array of every type, every number of threads and order of their work",
  "threads check overlapping segments and stop at what others have found",
  ["src/Sort.cpp: IsSorted, IsSortedFloat, IsSortedString, IsSortedUnicode, IsSortedVoid"])
p("C116", "CombineFilter and CombineAccum2Filter, from their arguments to their results",
  "CombineFilter(index, filter) returns an array of the type of index with the group number of every row that the filter keeps and 0 for the others. CombineAccum2Filter(a, b, max1, max2, filter) returns an array of an integer type that can hold (max1+1)*(max2+1), with 0 for rows that are not kept and b*(max1+1)+a for the others, so that two kept rows have the same number iff both of their group numbers are the same. Lengths that differ, filters that are not boolean and other types are refused.",
  "every array of every type, offset and stride, every maximum, every filter, every number of threads and order of their work",
  "the type of the result depends on the product of the maxima, the work on the number of rows, the elements read on the stride",
  ["src/Convert.cpp: CombineFilter, CombineAccum2Filter, CombineMask, CombineAccum2Mask"])
p("C117", "CombineAccum1Filter and MakeiFirst, from their arguments to their results",
  "CombineAccum1Filter(index, max, filter) numbers the groups 1..max that have a row which the filter keeps in the order of their first such row, and returns the new number of each row (0 for rows that do not count), the first rows and their number. MakeiFirst(index, max, filter, last) returns for each group its first (or last) row that the filter keeps, or the invalid value. Filters that are neither None nor a boolean array of the same length, group numbers of other types and maxima outside of the limits are refused.",
  "every array of group numbers of every type, offset and stride, every maximum and filter",
  "new numbers depend on the order of all rows; arguments that are ignored look like correct ones",
  ["src/Convert.cpp: CombineAccum1Filter, MakeiFirst, Combine1Filter, iFirstFilter, iLastFilter"])
p("C118", "RemoveTrailingSpaces, from its argument to the memory it leaves",
  "RemoveTrailingSpaces(a) replaces the spaces and zeros at the end of every text of a, byte strings as well as unicode strings, by zeros and changes nothing else in memory; other types are refused.",
  "every array of texts of every item size, offset and stride",
  "the array is changed in place and may be a view of a larger one",
  ["src/Convert.cpp: RemoveTrailingSpaces, TrailingSpaces, TrailingSpacesUnicode"])
p("C119", "The readers of times and dates, from an array of texts to the times",
  "TimeStringToNanos, DateStringToNanos and DateTimeStringToNanos return, for an array of texts of bytes or of unicode characters, one int64 for each text: the nanoseconds since 1970 (or since midnight) that the text says. Texts of any other kind give 0 or a time that is not negative, at most one warning, and nothing outside of the texts is read. Other types are refused.",
  "every array of texts of every item size, offset and stride, and every text",
  "the texts are numerous, are read without an end mark and tests use well-formed ones",
  ["src/DateTime.cpp: TimeStringToNanos, DateStringToNanos, DateTimeStringToNanos, ParseTimeString, ParseDateString, ParseDateTimeString"])
p("C120", "StrptimeToNanos, from an array of texts and a format to the times",
  "StrptimeToNanos(a, format) returns, for every text of a that says a moment in the format, the nanoseconds of that moment since 1970. For any other text it returns a number that is not negative and reads nothing outside of the text and of the format. Other types are refused.",
  "every array of texts, every text and every format",
  "formats and texts are both arbitrary",
  ["src/DateTime.cpp: StrptimeToNanos, ParseStrptime", "src/strptime5.cpp: rt_strptime"])
p("C121", "MultiKeyRolling, from its arguments to its results, over any sequence of calls",
  "MultiKeyRolling(columns, hint[, object]) numbers the different rows of a stream of batches in the order in which they first occur, from 0, and returns for every row of the batch its number and how often the row has occurred up to and including this one, the number of different rows so far and an object to continue with. Streams with different objects do not influence each other. The hint -1 deletes the object and no other one. Columns that are no arrays or differ in length are refused.",
  "every number of streams, batches and columns, in every order of the calls, and every hash function",
  "state is kept between calls, under an address that the caller hands back",
  ["src/MultiKey.cpp: MultiKeyRolling, CMultiKeyPrepare", "src/HashLinear.cpp: MultiKeyRollingStep2, MultiKeyRollingStep2Delete, CHashLinear::MultiKeyRolling"])
p("C122", "MultiKeyAlign32, from its arguments to its results",
  "MultiKeyAlign32(columns1, columns2, times1, times2, forward, exact) returns for every row of the first table the last row of the second table with the same items in all columns whose time is not after (forward: the first whose time is not before) the time of the row, strictly if exact matches are not allowed, and the invalid index if there is none; rows with an invalid time match nothing. The result is of type int32 up to 2000000000 rows, else int64. Columns and times of other lengths, sizes or types are refused.",
  "every two tables with any number of columns and rows, times that go up of every integer and float type, every hash function",
  "two tables are merged by time through one hash table, with items of arbitrary bytes and any order of the times of both tables",
  ["src/MultiKey.cpp: MultiKeyAlign32, CMultiKeyPrepare", "src/HashLinear.cpp: AlignHashMK32, AlignHashMK64, FindLastMatchMK, FindNextMatchMK"])
p("C123", "MultiKeyIsMember32, from its arguments to its results",
  "MultiKeyIsMember32(columns1, columns2[, hint]) returns for every row of the first table whether some row of the second table has the same items in all columns, and the first such row, else the invalid index of the type of the result, which is int8 below 100 rows, int16 below 30000, int32 below 2000000000 and int64 else. Columns that are no arrays, differ in length, or have another total size than those of the other table are refused.",
  "every two tables with any number of columns and rows, every hint that is not too small, every division among threads, every hash function",
  "the rows are looked up by several threads in a table whose index type depends on the sizes",
  ["src/MultiKey.cpp: MultiKeyIsMember32, CMultiKeyPrepare", "src/HashLinear.cpp: IsMemberHashMKPre, IsMemberHashMK, IsMemberMK, MakeHashLocationMK"])
p("C124", "BinCount and GroupFromBinCount, from their arguments to their results",
  "BinCount(keys, bins[, pack]) returns how many keys each bin 0 .. bins-1 has; with pack=True also the rows of the bins one bin after the other, each in ascending order, and where each bin begins. GroupFromBinCount(keys, counts) returns the same two arrays from the counts. The arrays are int32 up to 2000000000 rows and int64 above. No keys, no bins, objects that are no arrays and counts of another type are refused.",
  "every array of integer keys, every number of bins, every division among threads and every order of their steps",
  "the counting and the packing depend on the number of threads and on how their steps interleave",
  ["src/MultiKey.cpp: BinCount, InternalBinCount, GetPack, InternalGetBinFunc, GroupFromBinCount, GetMakeIGroup, GetMakeIGroup2"])
p("C125", "MakeiNext, from its arguments to its result",
  "MakeiNext(keys, bins, mode) returns for every row the next (mode 0) or the previous row with the same key, else the invalid value; the result has the type of the keys. Keys that are no signed integers are refused.",
  "every array of signed integer keys, every number of bins, every mode",
  "row numbers are stored in the type of the keys and rows whose key is out of range are not written",
  ["src/MultiKey.cpp: MakeiNext, MakeNextKey"])
p("C126", "GroupByPack32, from its arguments to its results",
  "GroupByPack32(keys, next, groups) returns the rows ordered by group, each group in ascending order, where each group begins and how many rows it has; group 0 holds the filtered rows. next is None, or an int32 array with the next row of the same group for every row, -1 if there is none; the result does not depend on it, except for the order of the groups. Keys that are no arrays of signed integers and a next array of another length are refused.",
  "every array of integer keys, every number of groups, every right next array",
  "with a next array the heads of the groups are found in one pass that only works if the groups are numbered in the order of their first rows",
  ["src/MultiKey.cpp: GroupByPack32, GroupByPackFixup32, GroupByPackFinal32"])
p("C127", "ShiftArrays, from its arguments to its effect",
  "ShiftArrays(arrays, k) moves the element i + k of every array of one dimension in the list to i, for every i for which that element exists, leaves the other elements and the memory around the array unchanged, and does nothing for None. Objects that are no arrays, arrays of unknown types and amounts of more than 64 bits are refused before an array is changed.",
  "every list of arrays, every amount of 64 bits",
  "an array with gaps is copied and only the copy is shifted; the least amount overflows; which elements are moved depends on the sign and the length",
  ["src/Convert.cpp: ShiftArrays", "src/MultiKey.cpp: BuildArrayInfo"])
p("C128", "SetItem, from its arguments to its effect",
  "SetItem(arr, mask, values) with arrays of the same type, a boolean mask as long as the array and one value for every row that is set returns True and stores the values in the rows that are set, in order; a single value is stored in all of them if there are more than 16384 rows. It changes nothing else in memory. In all other cases it returns False and changes nothing; values of which no array can be made are an error.",
  "every array and mask of any length and stride, every list of values, every order of the threads",
  "strides of the three arrays are not looked at; the number of values that is accepted depends on the number of rows",
  ["src/Convert.cpp: SetItem, SetItemBooleanMask, SetItemBooleanMaskLarge"])
p("C129", "PutMask, from its arguments to its effect",
  "PutMask(arr, mask, values) with a boolean mask and as many values as the array has rows returns True and stores, for every row that is set, the value of that row, converted to the type of the array. It changes nothing else in memory. In all other cases it returns False and changes nothing; values of which no array can be made are an error.",
  "every array, mask and values of any length and stride, every pair of types, every order of the threads",
  "only the stride of the array is looked at, not those of the mask and the values; the result of the conversion to an array is not checked",
  ["src/Convert.cpp: PutMask, GetConversionPutMask"])
p("C130", "ReverseShuffle, from its argument to its result",
  "ReverseShuffle(keys) of an array of signed integers that holds every number from 0 to its length less one returns the inverse permutation, of the same type; arrays of other types and other objects are refused. Whatever the numbers, it returns an array of the same length or refuses.",
  "every array of any length and stride, every order of the threads",
  "the strides of the array are not looked at",
  ["src/Merge.cpp: ReverseShuffle, ReverseShuffleMT"])
p("C131", "ReIndexGroups, from its arguments to its effect",
  "ReIndexGroups(keys, uniques, u_cutoffs, i_cutoffs) replaces each key of partition t by the number that it selects among the uniques from the beginning of partition t on, 0 if there is none, leaves keys behind the last partition and all other memory unchanged, and returns the keys. Objects that are no arrays, and arrays whose items have not the right size, are refused.",
  "every array of keys, uniques and ends of partitions, every order of the partitions",
  "only item sizes are checked: not the types, strides, the lengths of the two lists of ends, nor that the ends lie within the rows",
  ["src/Merge.cpp: ReIndexGroups, ReIndexGroupsMT"])
p("C132", "BooleanSum and BooleanToFancy, from their arguments to their results",
  "BooleanSum(mask) returns the number of rows that are set, whatever the strides of the mask. BooleanToFancy(mask) returns the rows that are set in ascending order, of type int32 below 2000000000 rows and int64 otherwise; with both=True followed by the rows that are not set, and the number of rows that are set. Arguments that are no boolean arrays are refused.",
  "every mask of any length and stride, every split among threads and order of their writes",
  "the second pass of BooleanToFancy ignores the stride that the first one uses",
  ["src/Merge.cpp: BooleanSum, BooleanToFancy, BooleanCount"])
p("C133", "BooleanIndex, from its arguments to its result",
  "BooleanIndex(values, mask) returns the values of the rows that are set, in order, as an array of the type of the values, whatever the strides of both. A mask that is not boolean or has another length is refused.",
  "every array of values of any item size and stride, every mask, every split among threads and order of their writes",
  "item sizes other than 1, 2, 4 and 8 take another loop that mixes up two strides",
  ["src/Merge.cpp: BooleanIndex, BooleanIndexInternal, BooleanCount"])
p("C134", "IsMemberCategoricalFixup, from its arguments to its results",
  "IsMemberCategoricalFixup(bins1, bins2, matches, n2, base1, base2) says for every row of the first array whether its category is used in the second, and gives the first row there, or the invalid number. Category numbers below the base offset never match. Strides are followed; category numbers and matches out of range, and arrays that are not integers, are refused.",
  "every two integer arrays, every array of matches, every base offset",
  "category numbers that are too large read memory behind a table, and strides are not looked at",
  ["src/HashFunctions.cpp: IsMemberCategoricalFixup, FindFirstOccurence, FinalMatch"])
p("C135", "MBGet, from its arguments to its result",
  "MBGet(values, index, default) returns for every index the element it names, counted from the end if it is negative, and the default, or the invalid value if none is given, where there is no such element; the result has the type of the values. A boolean index is a mask. Strides are followed. An index that is neither of integers nor boolean is refused unless it is empty.",
  "every array of values of any item size and stride, every index of every type and stride, every default, every split among threads and order of their writes",
  "unsigned indexes are read as signed ones, and threads place their results by the stride of the values",
  ["src/Merge.cpp: MBGet, GetItemFunction, GetItemCallback, GetItemInt, GetItemUInt, GetItemIntVariable, GetItemUIntVariable"])
p("C136", "InterpExtrap2d, from its arguments to its result",
  "InterpExtrap2d(values, xp, yp, clip) returns for every value the piecewise linear interpolation of its row of points, or of the one row there is; outside of the points the first or last line, or with clip the first or last point; NaN for NaN. The result has the type of the arrays. Strides of the values are followed. Values of more than one dimension, points of different shapes, fewer than two points, arrays of different types or not of floats are refused.",
  "every array of values, every two arrays of points of one or two dimensions, every clip, every split among threads and order of their writes",
  "a value above the last point reads behind the points before the end is noticed, and the stride of the values is not looked at",
  ["src/Ema.cpp: InterpExtrap2d, InterpolateExtrap, mat_interp_extrap, mat_interp"])
p("C137", "MergeBinnedAndSorted, from its arguments to its result",
  "MergeBinnedAndSorted(keys1, keys2, times1, times2, n) gives for every row of the first table the last row of the second that has the same key and is not later, or the invalid number of the result's type, whatever the types of keys and times and the strides of the arrays. Times of different types, and other types than int32, int64, float32 and float64, are refused.",
  "every two tables of keys below n that are sorted by time",
  "the key of the second table is read at the row of the first, the type of the keys is not looked at, and the types the message names are not those that work",
  ["src/HashLinear.cpp: MergeBinnedAndSorted, MergePreBinned, FindLastMatchCategorical"])
os.chdir(os.path.dirname(os.path.dirname(os.path.abspath(__file__))))
with open("properties.jsonl", "w") as f:
    for x in P: f.write(json.dumps(x) + "\n")
print(len(P), "properties")

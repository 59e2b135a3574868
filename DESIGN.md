# Formal model of dataseries/Lintel in Rocq (Coq 8.16.1)

## Layout

For each modelled component `X` there are up to four files in `rocq/theories/`:

* `X_Model.v`  - computable Gallina transcription of the code, every definition
  citing file and lines in /repo; simplifications are stated in the comment.
* `X_Spec.v`   - the small independent specification the property is stated against
  (sometimes placed directly in the property file when it is only a line or two).
* `X_Proofs.v` - proofs.
* `X_Props.v`  - the property theorems, each followed by `Print Assumptions`, with an
  `Example` that a concrete non-trivial case meets the hypotheses.

Shared files: `Common.v` (outcomes: `Ok x`, `Abort` for a failed INVARIANT, SINVARIANT or
FATAL_ERROR, `UB` for undefined behaviour in the C++ sense, `Fuel` when the model's own
recursion bound is hit, which every theorem excludes; histories of calls; `conforms`),
`CommonFacts.v`, `ListFacts.v`, `Arith.v` (the arithmetic the statistics are written over,
with the instances `exact`, rationals, and `ieee`, binary64), `Double64.v` (IEEE binary64
through Flocq).

Names: `C17_encode` is a theorem for property C17; `..._partial` proves the part that holds
and says in its comment what is missing; `..._refuted` proves with a concrete run that the
property as stated is false of the code.

`seeded/LOG.jsonl` records the wrong programs tried against the theorems.

## Trusted base

* Coq's kernel (8.16.1) and the reading of the C++ source into the `_Model.v` files;
  the C++ was not compiled or run.
* Machine integers are unbounded `nat`/`N`/`Z` where they cannot overflow under the
  hypotheses of the theorem; elsewhere the wrap is written out (`mod 2^32`, `mod 2^64`).
  Allocation never fails.
* std::vector, std::string, std::map, std::sort, pthread mutexes, boost::shared_ptr,
  boost::lexical_cast, inet_addr and libc string functions are modelled by their documented
  behaviour.
* Statistics code is modelled over an abstract arithmetic. Its theorems are for exact
  rationals unless they say otherwise; theorems named `_double_` or stated over `ieee` are
  for IEEE binary64 with rounding to nearest even (Flocq). Clock, RandomBase and the
  default interpolation search estimator are modelled in binary64 directly.
* x86-64 with TSO memory for the spin locks; one sequentially consistent word for Atomic.
* Debug-only checks (DEBUG_INVARIANT) are not executed in the model.
* Axioms: see the last section. None is added by this development.

## Plan, per property

| id | what is modelled | how it is proved |
|----|------------------|------------------|
| C01 | HashTable slot vectors (data,next), entry points, free list, prime resizing; HashMap methods on top | representation invariant + refinement to an association function, induction over op lists |
| C02 | same model, out-of-range access = UB | invariant by induction |
| C03 | iterator_base (chain index, slot index) | iteration list = concatenation of chains, permutation of the live entries |
| C04 | erase and partialReset | step lemma: erase removes the slot, remaining walk = remaining entries |
| C05 | addOrReplace | refuted by witness; the insertion half proved |
| C06 | randomlookup with an oracle stream of draws | result is live; reachability of each element |
| C07 | RotatingHashMap over the proved finite-map interface | refinement to a timestamped map |
| C08, C09, C56 | circular buffer with indices mod capacity | abstraction function to list; modular arithmetic |
| C10-C12, C57 | array heap | heap invariant, permutation |
| C13-C15, C61-C63 | heap of shared byte blocks with owners | separation invariant: buffers sharing a block never write it |
| C16 | bad-character table and search loop | loop invariant: no occurrence before the current offset |
| C17-C19, C58 | digit loops | positional arithmetic |
| C20-C25, C59, C60 | string functions on lists of bytes | structural induction |
| C26-C28 | id tables, interning pool | invariant over histories |
| C29 | mix with explicit mod 2^32 | inverse function, bitvector algebra |
| C30 | search loop with estimator oracle; the default estimator in binary64 | loop invariant against the sorted list; monotonicity of rounding |
| C31 | bitset tuples | induction on arity |
| C32 | Stats record | monoid homomorphism |
| C33, C34 | bins as lists of counters | invariant |
| C35-C37, C64 | buffers with weights and levels; constructor search for the sizes | invariant; rank counting; binomial sums |
| C38, C39 | cube recursion, cross product recursion, on the HashMap/HashUnique/Tuples models | refinement to maps from tuples; induction on arity |
| C40, C41, C43, C53, C55 | sequence/series/EMA/group/RW accumulators | invariant over histories |
| C42 | normal equations over exact rationals | completing the square |
| C44 | binary64 arithmetic via Flocq | monotonicity of rounding and exactness of representable points |
| C45, C46 | generator output functions, shuffle, over any generator of 32-bit words | counting/bijection, permutation |
| C47-C49 | small-step interleaving semantics (TSO store buffers for C48) | inductive invariants over all schedules |
| C50 | LintelLog levels, ids, appenders, parseDebugString | refinement to a history of settings and uses |
| C51, C52, C54 | direct functional models | induction |
| C65 | Matrix rows, gaussEliminate | row operations keep the solution set; induction on columns |
| C66 | HashUnique on the HashTable model | refinement to a finite set |
| C67 | Mersenne Twister init, initArray, reloadArray, tempering | the array holds a window of the published recurrence; linear algebra over GF(2) |
| C68 | MarsagliaRandom: MicroRand and the lagged generators | state machine of words against the published recurrences; injectivity gives the period |
| C69 | PThreadCond::timedWait, PThreadMutex::timedLock and its fallback | Flocq doubles reduced to exact integers; induction over the history of the clock |
| C70 | stringToInteger over lexical_cast and stream extraction | equivalence with numerals as digit lists, induction over the text |
| C71 | getNCpus with its cache | induction over the file |
| C72 | StatsHistogramUniform::mode, percentile on the histogram model | loop invariants over prefix counts; safety for any arithmetic, instantiated with doubles |
| C73 | StatsHistogramUniformAccum: both arrays and their merging loops | generic array loops, simulation with the plain histogram for any arithmetic, invariant on the per-bin sums |
| C74 | StatsHistogramLog over an abstract arithmetic with its log and exp | total count for any arithmetic; over the reals an invariant on bin intervals kept by both merging loops, termination because the logarithm of the range doubles |
| C75 | StatsHistogramLogAccum | the same invariant with per-bin sums |
| C76 | roundingErrorPart, isDoubleIntegral, convertDoubleLong on IEEE doubles | exact real characterisation of each rounded operation, cases by magnitude |
| C77 | inverseErf and inverseUnitNormalCDF over an abstract arithmetic and its sqrt, log, exp, erf | reals: erf is an integral (Coquelicot), erf < 1 from the Gauss integral; Newton steps shorter than the distance left of the root, minimal step length, contraction near 0; doubles: exit test |
| C78 | `AssertBoostFail` in both overloads, the recursion guard, the registration calls and the failing branch of `INVARIANT` (`AssertBoost_Model`); client code and hooks are terms of a small language with output, exceptions, try/catch, invariants and registration | `exec` only looks at `fail` through its result, so an invariant on the flag and the loops (`keeps`) is shown once for hooks and once for clients; nesting depth 2 is shown to be enough for all programs; order and content of the output by induction over the hook lists |
| C79 | `todccTfrac`, `todccTfrac_recalibrate`, `setRecalibrateIntervalSeconds`, `setClockRate`, `calibrateClock`, `allowUnsafeFrequencyScaling` and the constructor on IEEE doubles and 64-bit words (`ClockCC_Model`); what the machine answers and measures is an argument of each operation | invariant over operation lists (calibrated normally or time of day only); each rounded product bounded by its exact value; accuracy against a world in which true time is linear in the counter |
| C80 | `PThread` and `PThreadNoSignals` (constructor, destructor, setDetached, start, join, kill, the call of run()) over a model of POSIX threads with signal masks (`ThreadLife_Model`); client calls and steps of the threads are events of one schedule | one invariant that ties the fields of the objects and the threads to the history of what was seen, kept by every step; the properties are read off the history |
| C81 | all of `drawRandomLogNormal.cpp` except the regression test and the verbose output (`LogNormal_Model`), over any arithmetic; drand48, strtod and strtol are arguments | in exact arithmetic: a primitive of x^r times the log-normal density in terms of erf, its limits at 0 and at infinity, comparison of integrals for the bounds; induction on the number of trials for the search, with the step off the domain shown to be a dead end |
| C82 | Owned_Model: HashTupleStats.hpp and StatsCube.hpp on HashMap_Model with a heap of statistics objects; delete of a dead object or a null dereference is UB; factory outcomes (made, threw, null), throwing walk functions and stateful prune predicates are arguments | refinement to an association list of key, object and contents plus the list of leaked objects (Owned_Spec), by an invariant between heap and entries lifted over histories; the prune loop by induction on a measure of entries left and chain position |
| C83 | ProgOpt_Model: ProgramOption, ProgramOption&lt;bool&gt;, the list of deferred registrations, both descriptions, the actions, parseCommandLine and parseConfigFile; the boost parsers are an argument of any behaviour; getHelpWidth through StrInt_Model | equality with a specification by history (ProgOpt_Spec: latest event that concerns the option), by an invariant that splits the options into registered and pending ones; a separate invariant for destroyed options; a small concrete parser for the behaviour of -- |
| C84 | HashScan_Model: atStartOfChain, atEndOfChain, reset and the incremental scan of the comments, on HashTable_Model with any batch of operations between turns | a trace relation between the chains and what the turns show: a turn shows the elements of exactly one later chain; induction over the turns; witnesses for the growth, reserve and reset cases |
| C85 | HashPtr_Model: pointers as slot and storage of the vector, with any growth policy; add, addOrReplace, lookup, reserve, writes through pointers, add of a reference into the table, HashMap operator[] and the statement m[a] = m[b] in both orders | slots of elements that are not removed do not change (the permutation lemmas of HashTable_Proofs carry slots), the vector grows only when every slot is full; induction over the client program |
| C86 | TestMacro_Model: TEST_INVARIANT_MSGVEC and its forms as programs of AssertBoost_Model, around any code | what a block does where failures are exceptions is a small function of the block (behaves); execution under the throwing hook is shown equal to it by induction over the block |
| C87 | DepTool_Model: getDeptoolInfo, extractEnv, DeptoolInfo, with the environment, popen and the bytes of the process as arguments; fgets with its 200-byte buffer and end-of-file flag | induction over the lines of the output; every other output is shown to end in an answer or an error |
| C88 | ClockTS_Model: Clock::perThreadInit and perThread as steps of interleaved threads, with the mutex, pthread keys and values, other code that uses keys, and failing system calls | an invariant over all runs, in four phases of the initialisation; clocks are traced to the thread that allocated them |
| C89 | StatsDev_Model: StatsBase::stddev and relconf95, Stats::conf95 over Flocq doubles with the correctly rounded square root, and the count of resets | an invariant over all programs that bounds the sums and their rounding errors by the number of samples; real analysis of each query |
| C90 | Base64Race_Model: detranslate and decode as steps of interleaved threads that read and write the static pointer and the tables one entry at a time | invariants over all runs: entries are unset or right, the maker of the current table fills it in from the start; once it is complete and nobody is about to allocate, every decode is the sequential one |
| C91 | PQRef_Model: push and replaceTop of PriorityQueue with the argument an index into the same array, read afresh at each use | the slot is not overwritten while sifting (or overwritten by an equal element), so both runs agree; for replaceTop(top()) the loop below the root runs with the child's value, which gives the general refutation |
| C92 | reset() and another_new() as virtual functions over one type of objects of all statistics classes | per-class invariants that reset after add equals reset before; the object reached after any history resets to the constructed one; doubling keeps bins even and bounds ordered; over the reals the scaling of a logarithmic histogram is determined by its bounds |
| C93 | the model of getQuantile (Quantile_Model) instantiated with IEEE doubles | error bounds on q - 1e-15 and on the product: their sum stays below the distance to the next integer for all counts below 1e14, so the ceiling is the intended rank; the rest is the search theorem of C36 |
| C94 | the loops of printTextRanges, printTextTail and printRome in IEEE doubles, with Double::lt and the getQuantile of C93 | the accumulated argument is within i roundings of i/N (induction), so that the loop stops at N up to 8192; the tail fractions are checked to be the nearest doubles for the 13 powers of ten that fit; values through C93 and monotonicity of the rank |
| C95 | posix::read, read0 and readN over a descriptor with a script of short reads and failures; the buffer is a list of bytes, writing behind it is undefined behaviour | induction over the reads: the loop invariant is that the bytes read so far are at the front of the buffer |
| C96 | iscorrelated95 over the exact StatsSeries model of C41, with the real ln and sqrt | C41 gives the autocorrelation; monotonicity of ln and exp turns the comparison of the statistic into a threshold on r |
| C97 | StatsQuantile::add(Stats) with the object itself: every read through the argument sees the additions already made | the invariant of C35 is kept by every addition; with one buffer in use an explicit induction over the loop; the sum of the weights decides between the answer and the abort of getQuantile |
| C98 | parseXML over the LintelLog model of C50 and the stringToInteger model of C70; a node is a list of attributes | the level text is converted as C70 says; then simulation as in C50 |
| C99 | the definition records of StatsMaker with fields kept between settings, getHistMode, the constructor call make chooses, makeRW | simulation of the search of C51 through the map from a record to the object it makes |
| C100 | iteratorRangeEqual over indices into containers, outside is undefined | induction on the loop |
| C101 | stringPrintF over the text vsnprintf would print | list computation |
| C102 | modifyTimeNanoSec with checked 64-bit products | arithmetic |
| C103 | ProcessStatistics with fscanf over the bytes of the file at each call | induction over the calls; parser lemma for lines of numerals |
| C104 | matrices of a program with their arrays on a heap, 32-bit sizes and indices, setRow, copies | simulation of tables indexed by row and column, disjointness of arrays, count of arrays |
| C105 | downcaseString, upcaseString, stringIsBlank, stringIsSpace with the domain of <ctype.h> functions | induction on the string |
| C106 | stringToDouble over any strtod | case analysis |
| C107 | the arrays that constructors and add allocate and destructors delete, with the addresses in the pointer members | ownership invariant (no address twice, all alive), counted against the classes of the living objects |
| C108 | objects with several bases as paths, dynamic_cast, the comparison of pointers of two classes, safeDownCast, safeCrossCast, safeRef | induction on paths; uniqueness of the enclosing object |
| C109 | streams with data read ahead or pending over lseek, fseek64, ftell64; descriptors, fopen64, freopen64 | case analysis on the kind of seek; counting of descriptors |
| C110 | threads with nested scopes, exceptions and handlers; lock and unlock of SimpleMutex; interleaving by a schedule | invariant: the destructors a thread has still to run are the mutexes it holds |
| C111 | HashTable dense and unsafeGetRawDataVector over the model of C01-C05 | representation invariant (the free list is empty iff the vector is as long as the table has elements); the length of the vector is the peak size since the last clear, by induction on the history |
| C112 | the loops of chainLengthStats | the walk of each chain is the chain of the representation; elements filtered by bucket |
| C113 | cubeAll, cubeHadAny, addFullStats and addMean over the cube of C38 and exact Stats | from C38 and, for addMean, an invariant that an entry represents the means of the groups gathered so far |
| C114 | the measuring loop of calibrateClock over a script of readings | loop invariant (failures, measurements a permutation of the successes, stale truncated mean never confident); error bound by linear arithmetic over Q |
| C115 | estimateTodTfracLatency and initialMeasurements over scripts of readings | inversion of the waiting loops; insertion sort gives the element of a rank |
| C116 | readFileLine and doCFPFS over a directory listing and file contents, with the directories left open; calibrateClock of the C79 model | induction over the names; each cpu contributes one of three cases; the witnesses of the false parts are computed |
| C117 | writeStartAs, extendAs and readStartAs on the world of ByteBuffers, with wrapping products and alignment | reduction to the writes and loads of the C14 model after shift |
| C118 | unitNormalCDF, probAbsNormal, unitNormalPDF over the reals with the constants of the code, and in doubles | mean value theorem between the constants and the true factors; PI to 20 digits from Machin; limit of the integral of the density |
| C119 | getHostFQDN, stringError (both variants) and the wide string conversions; char arrays with indeterminate bytes | the array is terminated in every case; first canonical name by induction over the answers; conversions are maps |

## Defects of the code found on the way

Each is a theorem in the named property file unless marked (read).

* HashTable/HashUnique::addOrReplace keeps the old value (C05).
* Deque: iterator arithmetic with a negative offset across the array start (C09);
  push_back of an own element while growing uses a destroyed object (C56).
* PriorityQueue: initial size 0 (the default for large elements) writes outside (C12);
  selfVerify aborts on ties with the default comparator (C57).
* ByteBuffer: shared storage with slack breaks writeAvailable/appendFromStream (C15, C62);
  append of itself reads freed memory, assign of itself empties it (C61); replace wraps (C63).
* Base64 encodeBackward reads before the data (C58). toCSVform does not quote quotes and
  line breaks without a comma (C59). maybehexstring is not injective (C22).
  stringtoipv4 rejects 255.255.255.255 (C25).
* ConstantString: 2 GiB string overflows an int, embedded NULs compare equal (C27, C28).
  (read) nstrings is counted twice.
* bobJenkinsHash ignores keys whose length is a multiple of 2^32 (C29).
* Interpolation search on int64 overflows (C30).
* BitsetAnyTupleHash names `v.used`, which does not exist (read); StringId.hpp calls
  HashTable_hashbytes, which the tree does not define (read).
* StatsHistogramUniform: heap overflow in doubles, non-termination for low = high,
  growable wraps beyond 2^31 bins (C33); operator[] accepts one index too many (read).
* StatsQuantile: collapse writes past an array when there are more buffers than cells, as
  for StatsQuantile(0.1665, 9991); merging a never-used object reads all_buffers[-1] (C35).
* StatsSequence: MergeMax loses negative samples; int overflow after max_retain*2^30
  samples (C40).
* StatsSeries: unsigned wrap when N <= lag (C41); delete on new[], one-sided
  iscorrelated95 (read).
* StatsEMA leaves the sample range by rounding (C43).
* StatsSeriesGroup: reset keeps the overall statistics, gaps dereference NULL, interval <= 0
  never returns (C53). StatsRW: two leading All samples abort with groups, printing with
  NULL entries is undefined (C55).
* Double::eq of infinities; epsilon bits that underflow to 0 (C54).
* Matrix: gaussEliminate(0) is out of bounds, 32-bit size overflow, tiny pivots are reported
  unsolvable (C65); copies share and free the same array twice (read).
* AtomicSpinLock lets a second thread in after 2^32 spins (C48).
* LockOrderingGroup: unlocking one scoped lock twice at once can deadlock (C49).
* Clock: secondsToTfrac is undefined when the fraction rounds to a whole second and for
  negative seconds (C44).
* RandomBase: the fallback UINT32_MAX lacks a digit and makes randIntUnbiased biased (C45);
  seeding again keeps the bits of randBoolFast; an empty seed array is read (C67).
* LintelLog: with several matching prefixes the earliest wins for new categories but the
  latest for old ones; parsed levels above 255 wrap, so "x=256" switches x off (C50).
* StatsCube and HashTupleStats compile only for StatsT = Stats (read).
* MarsagliaRNGMicro assigns x twice and never z, so it has 64 bits of state, not 128; the
  lagged generators start at an uninitialised index and leave the recurrence at products
  that are multiples of 2^32 - 1 (C68); the sizes above 4 declared without a seed
  constructor cannot be seeded (read).
* The fallback pthread_mutex_timedlock busy-waits while clock and deadline have the same
  tv_nsec (C69).
* stringToInteger wraps negative text for unsigned types, ignores text after the digits in
  bases 8 and 16, and gives the character code for 8-bit types (C70). getNCpus accepts
  NUMBER_OF_PROCESSORS=-1 and returns -1 (C71).
* StatsHistogramUniform::percentile(0) is 0, whatever the range, when the first bin is
  empty (C72).
* StatsHistogramUniformAccum with an odd bin count writes one element past its value array
  in the constructor (C73).
* StatsHistogramUniformAccum::add ignores growable (C73), and value(numBins()) passes its
  check and reads past the array.
* StatsHistogramLog: operator[](numBins()) reads past the array; binWidth() returns the upper
  end of the first bin; isScalable() and numRescales() deny a scalable histogram; percentile(0)
  is 0 when the first bin is empty; reset() keeps a widened range; low == high passes the
  constructor and makes the first larger sample undefined; add(infinity) on a scalable one
  never returns; a far sample on a narrow fixed range overflows the conversion to unsigned (C74).
* StatsHistogramLogAccum: val_bins is never deleted (not modelled); value(numBins()) reads past
  the array; values that are not positive are accepted (C75).
* isDoubleIntegral(NaN) is true; exact integers above 2^49 are refused; convertDoubleLong of
  the double below 0.5 is 1, and odd integers between 2^52 and 2^53 come out one too large in absolute value (C76).
* inverseErf never returns for a negative argument, because the two bounds of its exit test
  are exchanged; so inverseUnitNormalCDF never returns below one half (C77).
- C78: `INVARIANT` catches every `std::exception` around `AssertBoostFail`, not only around the evaluation of the message. A hook that throws a `std::exception` that is not an `AssertBoostException` is therefore taken for a message that cannot be evaluated: the hooks run a second time, with the message "Exception evaluating ...". `throw e` copies, so classes derived from `AssertBoostException` are sliced. Hooks that register or clear hooks of the kind being run change a vector under its iterator.
- C79: with `AUFSO_UseTod` a `Clock` made before `calibrateClock()` converts minus infinity to `uint64_t`, although the header says such a clock is taken as calibrated. Time runs backwards by up to the drift when the clock recalibrates (nine microseconds at a rate that is one per cent off). A negative recalibration interval is an undefined conversion. While the counter is below the interval, just after a reset, a new clock answers a time in 1970. Read only: the check of `max_samples` in `calibrateClock` only extends an error text, so the loop can go on for ever; the search for frequency scaling leaks its `DIR` on the early return; `setClockRate` keeps its mutex when its INVARIANT throws.
- C80: when `PThread::start` throws inside `PThreadNoSignals::start` the signal mask of the caller is not restored, so every signal stays blocked. `thread_live` is only cleared by `join`, so an object whose thread was detached can never be started again, and joining it is undefined. `kill` uses a zeroed thread id before the first `start` and the id of a thread that is gone after `join`. The header says that `start` can be called multiple times; it throws until the thread is joined.
- C81: when the desired mean of `drawRandomLogNormal` exceeds the upper limit, the search can end with a negative log_sigma. The formulas then describe the part of the distribution above the limit, the program reports success, and every number it prints is at least the limit (`C81_number_partial`; mean 66.75, sigma 6.118 and limit 32.06 is such a case, found with a simulation in doubles outside the model). The tolerances are absolute: with a mean below 0.00025 any values are accepted, so the mean of the fit can be half of the desired one. A Newton step below 0.000001 counts as success although nothing is known about the deviations. `logNormal` compares x with a millionth of the logarithm of the mean. A call without arguments passes a null pointer to strcmp. The test `vr > 0.0 || vr <= 1.0` accepts every pair; only the comparison of a NaN afterwards rejects those outside the circle.
- C82: HashTupleStats::getHashEntry and StatsCube::getCubeEntry insert the key before they call the factory. When the factory throws, the entry stays with a null pointer, size() counts it, and the next walk, walkOrdered or zero walk dereferences null. walkZeros deletes its empty statistic only when the walk function returns, so a throwing one leaks it. getCubeEntry does not check the factory's result. Both classes delete in the destructor but keep the implicit copy constructor and assignment, so a copy that holds a statistic leads to a double delete.
- C83: the destructor of a ProgramOption unregisters nothing, so after a local option is destroyed every later parseCommandLine or parseConfigFile that boost accepts calls a function of the dead object. getHelpWidth converts the environment variable COLUMNS with stringToInteger, so a program started with COLUMNS empty or not a number dies at its first parse, help or not. parseCommandLine parses what the first pass leaves over a second time for the hidden options without the "--", so positional arguments that look like a hidden option are taken by it.
- C84: partialReset is said to allow a safe restart after some number of updates. When the updates enlarge the table, the scan can miss elements that were there all the time and show others twice (`C84_growth_refuted`). reserve() on a cleared table can shrink it, and partialReset then asserts (`C84_reserve_refuted`). reset() sets the chain and keeps the place, so after the last element was removed it yields an iterator that is not end() and shows a default value (`C84_reset_refuted`).
- C85: pointers and references into HashTable and HashMap dangle after an add beyond the capacity, which the headers do not say; m[a] = m[b] with one of the keys absent is undefined behaviour when the vector is full (`C85_assign_refuted`). HashTable::available() and HashMap::available() call chains.available(), which std::vector does not have, so they do not compile when used (read).
- C86: a TEST_INVARIANT test whose list holds the text "no invariant happened" passes although nothing failed; an exception of another class leaves the throwing hook registered, so later failures are thrown and not reported.
- C87: the header of getDeptoolInfo promises an empty structure if deptool is not installed; popen starts a shell and succeeds, so the caller is aborted. A line of deptool's output of 199 characters or more, about anything, aborts the caller. The character after the closing quote of a setting is not checked. The pipe is never closed.
- C88: Clock::perThread looks up its key before it checks that perThreadInit was called; before that the key is 0, which may be the key of another library, whose pointer is then returned as a clock. The result of pthread_setspecific is ignored; when it fails the thread gets a new clock at the next call.
- C89: Stats keeps a sum of squares, so one sample of 2^512 has a standard deviation that is not a number, six samples of 0.1 deviate by 1.9e-9 and have a mean below all of them, and 10^8 and 10^8 + 1 do not deviate. relconf95() is negative for negative samples and not a number for a sample of 0. resets() of a new object is 1: the constructor of Stats calls reset() after the constructor of StatsBase has set the count to 0.
- C90: ASCIIbeticalB64 publishes its decoding table before it fills it in, so a thread that decodes during the first decode of another reads uninitialised entries; two threads that both find no table make two and share one of them before it is complete, the other one leaks. C19: encoding 2^28 bytes or more fails, because the number of digits is computed in an int32_t.
- C91: changing the top of a PriorityQueue in place and calling replaceTop(top()) loses the element and queues another one twice, whenever the element has to move; push(top()) on a full queue reads deleted memory; with a strict comparator and ties push of a reference may queue another element.
- C92: reset() of a scalable histogram does not restore the range it was constructed with although the header says so; another_new() of a growable histogram that has grown to an odd number of bins has one bin more; StatsQuantile, StatsEMA, StatsSequence, StatsSeriesGroup and StatsHistogramGroup do not override another_new() and return a plain Stats; StatsSeriesGroup::reset() leaves count, mean and the like of the old samples.
- C93: the 1e-15 in getQuantile is sufficient for all counts below 1e14, and needed: 150000.0 * (131058.0 / 150000.0) rounds above 131058.
- C94: with 36376 ranges printTextRanges prints one quantile too many (the accumulated sum of the steps ends more than 1e-12 below 1); up to 8192 ranges the count is always right.
- C95: posix::readN asks ::read for nbyte bytes again after a short read, instead of the rest: on every descriptor with more than nbyte bytes left a single short read makes it write behind the buffer, and return more than nbyte. The failure message of read0 has five places for four arguments, so that the message is lost (read).
- C96: iscorrelated95 tests z >= 1.96, not |z| >= 1.96 as its comment says: 1 -1 1 -1 1 -1 1 -1 is reported as not correlated at lag 1, and no negative autocorrelation ever is.
- C97: q.add(q) for a StatsQuantile walks over the buffers it is filling: with n samples in one buffer of size b it adds b - n + 1 values instead of n, and every later getQuantile aborts (entry count), unless 2n = b + 1; an empty object calls memcpy with overlapping objects.
- C98: parseXML refuses level 255, which setDebugLevel and parseDebugString accept; takes level -4294967295 as 1; and without the attribute "category", which its documentation expects, sets the level of the category with the empty name.
- C99: setModeHistogram with LogAccum ignores scalable and growable, with Log it ignores growable; negative bins become more than 2^31 bins.
- C101: a message of 1024 characters or more comes back with its full length, but everything after its first 1023 characters is NUL; a formatting error throws std::length_error.
- C102: times after the year 2262 or before 1677 overflow a signed product; so does one last second whose nanoseconds would fit.
- C104: Matrix::resize does not delete the old array; a copied Matrix shares it and both destructors delete it; rows * cols wraps at 2^32.
- C105: the case and class functions pass chars from 128 to 254 to <ctype.h> as negative ints (undefined).
- C106: stringToDouble ignores what follows a NUL in the string, and takes a NUL alone for 0.
- C107: ~StatsSeries deletes its three arrays with delete instead of delete[] (undefined); StatsHistogramUniform::add loses the old array with each growth; ~StatsHistogramLogAccum deletes bins instead of val_bins, so that val_bins is lost.
- C109: fseek64 returns -1 for relative seeks that succeed and 0 for a seek to -1 that fails, and leaves the end-of-file indicator; freopen64 loses the stream and the descriptor it opened; fopen64 with an empty mode reads past its end.
- C110: locking a SimpleMutex again in a nested scope waits for ever (a mutex of the default kind).
- C111: `HashTable::available` (HashTable.hpp:512) calls `chains.available()`, which std::vector does not have; a program that uses it does not compile. It is not modelled.
- C113: mean() of an empty Stats is 0, so with addMean zeroCube(false) counts combinations without samples as zeros (StatsCube.hpp:32-34, Stats.cpp:122-129) (read).
- C114: `calibrateClock` reports "too many measurements taken, trying again" after 400 measurements but does not leave the loop (Clock.cpp:361-363); with noise, or max_conf95_rel = 0, it never returns and the error text grows.
- C115: `initialMeasurements` takes a "truncated mean" of the cycles per quantum without sorting them first (Clock.cpp:236-242).
- C116: the check for frequency scaling ends the program on an empty scaling file (as offline cpus can have) even under the settings that only warn, and leaks the open directory whenever it finds scaling.
- C117: extendAs and writeStartAs compute elements * sizeof(T) in size_t; a count whose product wraps passes the check and the write that follows leaves the storage. writeStartAs hands out unaligned pointers after odd contents.
- C118: probAbsNormal of a negative number answers as for its absolute value, although every absolute value is above it.
- C119: getHostFQDN cuts host names above 1023 bytes off (or ends the program); string2wstring converts byte by byte, so text in UTF-8 is never decoded.

## What is not modelled

Text output of the statistics classes;
NaN samples; rounding of log() and exp() in StatsHistogramLog and StatsHistogramLogAccum;
termination of inverseErf in doubles (it depends on the library's erf);
the
seed 0 of the Mersenne Twister, which draws system parameters, and whether
randIntUnbiased terminates on the actual generator; the confidence test of
Clock calibration, a parameter of the model; appenders that log; the statistics counters of ConstantString;
the command line parsers of boost under ProgramOptions and the text of its usage; stack and guard
sizes of PThread, debugInfo and isLocked; the XML parser, the parts of Posix.hpp that only check a return value, and
Windows compatibility headers; the Perl and Python parts of the tree.

## Print Assumptions, per theorem

Generated from the `Print Assumptions` commands in the property files.

* Closed under the global context (no axioms): all other property theorems (439).
* `ClassicalDedekindReals.sig_forall_dec`, `ClassicalDedekindReals.sig_not_dec`, `Classical_Prop.classic`, `FunctionalExtensionality.functional_extensionality_dep`:
  C116_refuses, C118_beyond_double, C118_beyond_partial, C118_beyond_refuted, C118_cdf, C118_cdf_double, C118_cdf_shape, C118_pdf, C118_pdf_double, C118_quantile, C30_default_signed_partial, C30_default_signed_refuted, C30_default_unsigned, C32_double_count_min_max, C32_double_integer_sums_exact, C32_double_sum_depends_on_grouping_refuted, C33_double_bin_out_of_bounds_refuted, C33_scalable_empty_range_never_returns_refuted, C43_double_refuted, C44_double_roundtrip, C44_extraction, C44_least_tfrac, C44_micro_roundtrip, C44_monotone, C44_nano_roundtrip, C44_offset, C44_same_instant, C44_seconds_nearest, C44_seconds_out_of_range, C44_seconds_refuted, C44_signed_double, C44_to_double, C45_double_closed, C45_double_closed53, C45_double_open, C45_double_open53, C53_double_refuted, C54_double_coherent, C54_double_symmetric, C54_epsilon_underflow_refuted, C54_infinity_refuted, C69_deadline, C69_monotone, C69_negative, C69_whole_seconds, C72_double_safe, C74_bin_width_refuted, C74_double_safe, C74_empty_range_refuted, C74_far_sample_refuted, C74_fixed_bins, C74_index_off_by_one_refuted, C74_infinity_refuted, C74_is_scalable_refuted, C74_mode, C74_monotone, C74_percentile, C74_refused, C74_reset_refuted, C74_scalable_bins, C74_zero_refuted, C75_bins, C75_nonpositive_refuted, C75_value_off_by_one_refuted, C76_awkward_refuted, C76_checked_convert, C76_convert, C76_infinite, C76_integral, C76_large_refuted, C76_nan_refuted, C76_out_of_range, C76_sizes, C77_domain, C77_inverse, C77_negative_doubles_refuted, C77_negative_refuted, C77_positive, C77_quantile, C77_quantile_refuted, C77_zero, C79_accurate, C79_answers, C79_backwards_refuted, C79_boot_refuted, C79_default_accurate, C79_negative_refuted, C79_safe_partial, C79_slow, C79_steady, C79_use_tod, C79_use_tod_refuted, C81_density_partial, C81_density_refuted, C81_fit_partial, C81_fit_refuted, C81_moment, C81_moment_above, C81_normal, C81_number_partial, C81_start, C81_target, C81_usage_partial, C89_accuracy_partial, C89_cancellation_refuted, C89_equal_integers, C89_equal_samples_refuted, C89_finite_partial, C89_no_samples, C89_overflow_refuted, C89_relative_refuted, C89_single, C92_log_scalable, C93_adjustment_needed, C93_any, C93_eps, C93_exact, C93_kth, C93_refused, C94_count_refuted, C94_other, C94_ranges, C94_ranges_any, C94_rome, C94_tail, C96_negative, C96_never, C96_partial, C96_two_sided_refuted
* `ClassicalDedekindReals.sig_forall_dec`, `FunctionalExtensionality.functional_extensionality_dep`:
  C81_findZero, C81_findZero_refuted, C81_solve2, C81_usage_refuted

vcheck's listing of every constant in the compiled files also names the opaque
implementation symbols of the standard library's `Rdefinitions.RbaseSymbolsImpl` and
`ssr.ssrunder.Under_rel`; they are sealed definitions of the standard library, not axioms
of this development.

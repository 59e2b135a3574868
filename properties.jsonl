{"id": "C01", "title": "HashMap behaves as a finite map", "statement": "Any sequence of HashMap operations (operator[] read/assign, lookup, exists, cGet, dGet, addUnlessExist, remove with or without must_exist, clear, reserve, size, empty) gives exactly the answers a finite key->value map would give, including across automatic resizing and slot reuse; the only aborts are the documented ones (cGet of / must-exist remove of an absent key).", "quantifier": "every operation sequence, every key and value type with a decidable equality, every hash function consistent with that equality, every initial size", "why_tests_cant": "Bugs depend on the interleaving of removes (free-list reuse), collisions and resizes; a unit test samples a handful of hash functions and histories.", "anchors": ["include/Lintel/HashMap.hpp:HashMap", "include/Lintel/HashTable.hpp:add,lookup,remove,internalAdd,resizeHashTable", "src/HashTable.cpp:prime list"]}
{"id": "C02", "title": "HashTable keeps its chains, free list and size consistent", "statement": "After any sequence of add/remove/erase/clear/reserve the number of live entries equals size(), every live entry is found by lookup, no slot is at once live and free, the free-list length equals the recorded count (so the internal consistency assertion can never fire), and no index outside the slot vectors is touched.", "quantifier": "every operation sequence and every hash function (even adversarial ones)", "why_tests_cant": "A corrupted chain shows only for the particular collision/removal pattern that creates it.", "anchors": ["include/Lintel/HashTable.hpp:remove,internalAdd,verifyFreeListSize,resizeHashTable"]}
{"id": "C03", "title": "HashTable iteration visits every element exactly once", "statement": "Iterating from begin() to end() on an unmodified table yields a permutation of the live elements: each exactly once, none missing, none extra, and terminates without reading outside the table.", "quantifier": "every reachable table (any history, any hash function)", "why_tests_cant": "Depends on the distribution of empty and multi-element chains; must hold for every reachable layout.", "anchors": ["include/Lintel/HashTable.hpp:iterator_base,begin,end,increment,findNonemptyChain"]}
{"id": "C04", "title": "HashTable erase through an iterator removes exactly that element and keeps iterating correctly", "statement": "erase(it) removes exactly the element it designates; all other elements stay, and the returned/advanced iterator continues so that a full erase-if walk examines each original element once.", "quantifier": "every reachable table, every position, every subset of elements chosen for erasure", "why_tests_cant": "Chain-head, chain-middle and last-in-table positions interact with arbitrary layouts.", "anchors": ["include/Lintel/HashTable.hpp:erase,partialReset,atStartOfChain,find"]}
{"id": "C05", "title": "addOrReplace leaves the new value in the table", "statement": "After addOrReplace(v) a lookup of a value equal (by the table's equality) to v returns v itself, whether or not an equal element was present before.", "quantifier": "every table and every value", "why_tests_cant": "Elements whose equality ignores part of the data are needed; unit tests use plain integers for which replacing is unobservable.", "anchors": ["include/Lintel/HashTable.hpp:addOrReplace", "include/Lintel/HashUnique.hpp:addOrReplace"]}
{"id": "C06", "title": "randomlookup returns a stored element", "statement": "On a non-empty table randomlookup terminates for a fair random source and the element it returns is live in the table; every live element can be returned.", "quantifier": "every non-empty reachable table and every sequence of random draws", "why_tests_cant": "The result depends on random draws and on sparse tables.", "anchors": ["include/Lintel/HashTable.hpp:randomlookup"]}
{"id": "C07", "title": "RotatingHashMap ages out exactly the keys not touched for two rotations", "statement": "A key is found iff it was inserted or accessed (lookup/operator[]/exists) since the last-but-one rotation and not removed since; lookup returns the latest assigned value; rotate/flushRotate call back for exactly the entries discarded; size_recent+size_old equals the number of distinct keys retained.", "quantifier": "every sequence of insert, lookup, exists, existsNoPromote, remove, rotate, flushRotate and walk operations", "why_tests_cant": "Staleness depends on the whole history of accesses and rotations.", "anchors": ["include/Lintel/RotatingHashMap.hpp"]}
{"id": "C08", "title": "Deque is a FIFO sequence", "statement": "Any sequence of push_back, pop_front, front, back, at, size, empty, reserve, clear and copying behaves as on a plain list: elements come out in insertion order, at(i) is the i-th oldest, growth never loses, duplicates or reorders elements.", "quantifier": "every operation sequence, every capacity and every wrap position", "why_tests_cant": "Errors sit at particular (front, back, capacity) alignments when growth happens.", "anchors": ["include/Lintel/Deque.hpp:push_back,pop_front,at,push_expand,reserve,clear"]}
{"id": "C09", "title": "Deque iterators address the right element", "statement": "begin()+k designates element k and end()-begin()==size(); ++ and -- and +=/-= by any in-range amount (positive or negative) move by exactly that many positions.", "quantifier": "every deque state, every pair of positions, every signed offset", "why_tests_cant": "Modular arithmetic on unsigned values is right for some capacities only.", "anchors": ["include/Lintel/Deque.hpp:iterator,const_iterator"]}
{"id": "C10", "title": "PriorityQueue always yields a most important element", "statement": "For any interleaving of push/pop/replaceTop, top() is an element such that no queued element is more important, the queue contents are exactly the multiset of pushed minus popped elements, and draining gives them in non-increasing importance.", "quantifier": "every operation sequence and every comparator that is a total preorder given in its <= or its < form", "why_tests_cant": "Heap order violations surface only under particular insertion orders and ties.", "anchors": ["include/Lintel/PriorityQueue.hpp:push,pop,pop_bottom_up_heuristic,top"]}
{"id": "C11", "title": "PriorityQueue replaceTop equals pop followed by push", "statement": "replaceTop(x) leaves the queue with the same multiset of elements and the same top (up to equal importance) as pop() then push(x).", "quantifier": "every non-empty queue and every value", "why_tests_cant": "Needs equality of multisets for all heaps.", "anchors": ["include/Lintel/PriorityQueue.hpp:replaceTop"]}
{"id": "C12", "title": "PriorityQueue push never writes outside its storage", "statement": "push stores inside the allocated array for every legal initial size and history.", "quantifier": "every constructor argument and history", "why_tests_cant": "Only specific initial sizes or element sizes expose the growth computation.", "anchors": ["include/Lintel/PriorityQueue.hpp:PriorityQueue,double_size,push"]}
{"id": "C13", "title": "ByteBuffer copies are isolated", "statement": "Writing to, consuming from, appending to, replacing or resizing one ByteBuffer never changes the readable contents of any other ByteBuffer, although copies share storage.", "quantifier": "every set of buffers and every sequence of copy/assign/write operations on them", "why_tests_cant": "Aliasing depends on the full copy/write history.", "anchors": ["include/Lintel/ByteBuffer.hpp:uniqueify,forceUnique,assign,operator="]}
{"id": "C14", "title": "ByteBuffer is a byte FIFO", "statement": "The readable bytes of a buffer are the bytes written minus the bytes consumed, in order, for any mix of write, append, extend, consume, shift, resize and replace; capacity is never exceeded.", "quantifier": "every operation sequence and every byte string", "why_tests_cant": "Compaction/resizing happens at history-dependent points.", "anchors": ["include/Lintel/ByteBuffer.hpp:NoCopyByteBuffer,append,consume,resizeBuffer"]}
{"id": "C15", "title": "ByteBuffer accepts a write of up to writeAvailable() bytes", "statement": "If n <= writeAvailable() then writeStart(n)/extend(n) succeed (no abort) and do not write outside the storage.", "quantifier": "every reachable buffer, including ones sharing storage", "why_tests_cant": "Fails only for shared buffers with slack, a state ordinary tests do not build.", "anchors": ["include/Lintel/ByteBuffer.hpp:writeStart,writeAvailable,forceUnique,appendFromStream"]}
{"id": "C16", "title": "BoyerMooreHorspool finds the first occurrence", "statement": "find returns the offset of the first occurrence of the needle in the haystack, or npos exactly when there is none; matches() agrees.", "quantifier": "every needle of length >= 1 and every haystack over all byte values", "why_tests_cant": "Shift-table errors appear only for particular repeated-character needles.", "anchors": ["src/BoyerMooreHorspool.cpp:init,find"]}
{"id": "C17", "title": "Base64 number encoding is the base-64 numeral", "statement": "Encoding a 32- or 64-bit number with d digits yields exactly d alphabet characters forming the base-64 numeral of the number modulo 64^d; with the automatic or any sufficient digit count the number can be read back, and decode of a 4k-digit encoding gives its 3k big-endian bytes.", "quantifier": "every 32/64-bit value and digit count", "why_tests_cant": "2^64 values.", "anchors": ["include/Lintel/Base64.hpp:encode,decode"]}
{"id": "C18", "title": "Base64 preserves order", "statement": "With a fixed digit count, numeric order of the numbers equals byte-wise lexicographic order of the encodings; for data of equal length the order of encoded strings equals the lexicographic order of the data.", "quantifier": "every pair of values / byte strings", "why_tests_cant": "Quantifies over pairs.", "anchors": ["include/Lintel/Base64.hpp:encode"]}
{"id": "C19", "title": "Base64 data encoding is injective with predictable length", "statement": "Encoding a byte string yields ceil(8n/6) alphabet characters and different strings encode differently (the data can be recovered).", "quantifier": "every byte string", "why_tests_cant": "Unbounded strings.", "anchors": ["include/Lintel/Base64.hpp:encode(const void*,size)"]}
{"id": "C20", "title": "split and join are inverse", "statement": "join(sep, split(s, sep)) == s, and no piece produced by split contains sep; split(join(sep, parts), sep) == parts when no part contains sep and parts is non-empty and sep is a single character.", "quantifier": "every string, every non-empty separator", "why_tests_cant": "Separator overlaps, leading/trailing/adjacent separators.", "anchors": ["src/StringUtil.cpp:split", "include/Lintel/StringUtil.hpp:join"]}
{"id": "C21", "title": "hexstring and hex2raw are inverse", "statement": "hex2raw(hexstring(s)) == s for every byte string; hexstring output has twice the length and only hex digits; hex2raw accepts upper and lower case.", "quantifier": "every byte string", "why_tests_cant": "Sign extension and high bytes.", "anchors": ["src/StringUtil.cpp:hexstring,hex2raw"]}
{"id": "C22", "title": "maybehexstring/maybehex2raw round trip", "statement": "maybehex2raw(maybehexstring(s)) == s.", "quantifier": "every byte string", "why_tests_cant": "Only printable strings that look like hex break it.", "anchors": ["src/StringUtil.cpp:maybehexstring,maybehex2raw"]}
{"id": "C23", "title": "escapeUnprintable is reversible", "statement": "escapeUnprintable yields only printable characters and distinct inputs have distinct outputs (a decoder recovers the input).", "quantifier": "every byte string", "why_tests_cant": "Injectivity over all strings.", "anchors": ["src/StringUtil.cpp:escapeUnprintable"]}
{"id": "C24", "title": "mysqlEscape output cannot break out of a quoted literal", "statement": "Between quotes of either kind, MySQL reads mysqlEscape(data) back as exactly data, and the literal ends at the closing quote the caller wrote; the escaped text has no NUL, newline, carriage return or control-Z.", "quantifier": "every byte string, either quote character, any text after the literal", "why_tests_cant": "Injection safety must hold for all inputs.", "anchors": ["src/StringUtil.cpp:mysqlEscape"]}
{"id": "C25", "title": "IPv4 text conversion round-trips", "statement": "stringtoipv4(ipv4tostring(v)) == v and ipv4tostring is injective; the text is the four octets in decimal, most significant first.", "quantifier": "every 32-bit address", "why_tests_cant": "2^32 values incl. the broadcast address.", "anchors": ["src/StringUtil.cpp:ipv4tostring,stringtoipv4"]}
{"id": "C26", "title": "StringId is a stable bijection", "statement": "getId gives equal ids exactly to equal strings, ids are never reassigned, getString(getId(s)) == s for the whole life of the object; ids are consecutive starting at 1.", "quantifier": "every history of getId/getString calls", "why_tests_cant": "Stability over unbounded histories.", "anchors": ["src/StringId.cpp", "include/Lintel/StringId.hpp"]}
{"id": "C27", "title": "ConstantString interning: same object iff same content", "statement": "Two ConstantStrings compare equal by the fast pointer comparison iff their byte contents are equal, and the content of a ConstantString never changes however many strings are created later.", "quantifier": "every history of string creations", "why_tests_cant": "Pool management (buffer switch-over) is history dependent.", "anchors": ["src/ConstantString.cpp:init", "include/Lintel/ConstantString.hpp"]}
{"id": "C28", "title": "ConstantString ordering is consistent with equality", "statement": "compare is a total order on contents: antisymmetric, transitive and zero exactly for equal contents.", "quantifier": "all pairs/triples of byte strings", "why_tests_cant": "Embedded NUL bytes are needed to see the violation.", "anchors": ["include/Lintel/ConstantString.hpp:compare"]}
{"id": "C29", "title": "Jenkins mixing loses no information; hashing respects equality", "statement": "The 96-bit mix step is a bijection on triples of 32-bit words; the byte hash depends only on (initial value, bytes, length) and processes every byte; hashing 64-bit values and pairs via the mix is deterministic and total.", "quantifier": "all 2^96 triples; all byte strings", "why_tests_cant": "State space too big to enumerate.", "anchors": ["include/Lintel/HashFns.hpp:BobJenkinsHashMix3", "src/HashFns.cpp:bobJenkinsHash"]}
{"id": "C30", "title": "Interpolation search equals lower bound", "statement": "On a sorted range the search returns the first position whose key is not less than the target, for any estimator that stays within the range, and never dereferences outside the range; it terminates.", "quantifier": "every sorted range, every key, every admissible estimator", "why_tests_cant": "Estimator behaviour and duplicates are unbounded.", "anchors": ["include/Lintel/unstable/InterpolationSearch.hpp"]}
{"id": "C31", "title": "Tuples with 'any' values: equality, hash and order agree", "statement": "Equal (key,any-mask) tuples hash equally; equality is an equivalence; the strict-less-than is a strict weak order whose equivalence is that equality.", "quantifier": "all tuples and masks", "why_tests_cant": "Pairs and triples of tuples.", "anchors": ["include/Lintel/Tuples.hpp"]}
{"id": "C32", "title": "Stats merging equals adding all samples", "statement": "Adding one Stats to another gives the same count, sum, sum of squares, min and max as adding all samples to one object; any grouping/order of merges agrees.", "quantifier": "every partition of every sample sequence (exact arithmetic)", "why_tests_cant": "Quantifies over partitions.", "anchors": ["src/Stats.cpp:add", "include/Lintel/Stats.hpp"]}
{"id": "C33", "title": "Uniform histogram counts every sample exactly once", "statement": "After any samples the sum of all bin counts equals the number of added samples under scaling, growing and fixed modes, and a sample is counted in the bin whose interval contains it.", "quantifier": "every sample sequence and configuration", "why_tests_cant": "Rescaling merges bins at history-dependent times.", "anchors": ["src/StatsHistogram.cpp:StatsHistogramUniform"]}
{"id": "C34", "title": "Histogram group routes each sample to exactly one sub-histogram", "statement": "Each sample goes to the unique sub-range containing it (or the low/high overflow), and the total count is the sum of the parts.", "quantifier": "every strictly increasing range list and every sample", "why_tests_cant": "Boundary values.", "anchors": ["src/StatsHistogram.cpp:StatsHistogramGroup"]}
{"id": "C35", "title": "StatsQuantile accounts for every sample", "statement": "At every moment the weighted number of retained samples plus the samples pending equals the number added; all retained values are values that were added; all full buffers are sorted.", "quantifier": "every sample sequence and every (buffers, size) configuration", "why_tests_cant": "Collapses happen at levels determined by the history.", "anchors": ["src/StatsQuantile.cpp:add,collapse,init_buffers"]}
{"id": "C36", "title": "StatsQuantile is exact before the first collapse and its rank search is right", "statement": "While no collapse has happened getQuantile(q) returns the element of rank ceil(q*n) of the sorted samples; in general both internal search methods return the element at the requested weighted rank.", "quantifier": "every sample sequence, every quantile", "why_tests_cant": "All ranks of all multisets.", "anchors": ["src/StatsQuantile.cpp:getQuantile,getQuantileByIndex,getQuantileByBinSearchIndex"]}
{"id": "C37", "title": "StatsQuantile error bound", "statement": "After any number of collapses, the rank of the returned value differs from the requested rank by at most the sum of the weights the collapses could hide (the MRL bound W-bound).", "quantifier": "every sample sequence and collapse schedule", "why_tests_cant": "The worst case is adversarial.", "anchors": ["src/StatsQuantile.cpp:collapse"]}
{"id": "C38", "title": "StatsCube aggregates every combination of dimensions", "statement": "The cube entry for a tuple pattern (some coordinates 'any') equals the merge of all base entries matching the pattern, and there is one entry per pattern matched by some base entry; prune removes exactly the entries failing the predicate.", "quantifier": "every set of base tuples and every arity", "why_tests_cant": "2^arity patterns over arbitrary data.", "anchors": ["include/Lintel/StatsCube.hpp:addToCube,cubeAddOne,prune"]}
{"id": "C39", "title": "HashTupleStats zero-walk covers the cross product", "statement": "walkZeros visits every combination of the values seen in each dimension exactly once, supplying the stored statistics where present and an empty one elsewhere.", "quantifier": "every set of tuples and every arity", "why_tests_cant": "Cross products of arbitrary size.", "anchors": ["include/Lintel/HashTupleStats.hpp:walkZeros"]}
{"id": "C40", "title": "StatsSequence buckets are block aggregates", "statement": "value i is the aggregate (sum, mean or max) of the i-th consecutive block of points_per_bucket samples; points_per_bucket is a power of two; at most max_retain buckets exist; no sample is lost.", "quantifier": "every sample sequence, every even max_retain, every merge mode", "why_tests_cant": "Merging happens at powers of two of an unbounded history.", "anchors": ["src/StatsSequence.cpp:add"]}
{"id": "C41", "title": "StatsSeries autocovariance equals the textbook estimator", "statement": "autocovariance(k) equals (1/N) sum over t of (x_t-mean)(x_{t+k}-mean) although only running sums are kept.", "quantifier": "every sample sequence, every lag up to max_lag, every N", "why_tests_cant": "Algebraic identity over all sequences; unsigned underflow when N <= k.", "anchors": ["src/StatsSeries.cpp:add,autocovariance"]}
{"id": "C42", "title": "LeastSquares returns the minimiser", "statement": "fitLinearVertical's line has weighted squared vertical error no larger than any other line, for non-negative weights.", "quantifier": "every data set (exact arithmetic) with non-zero denominator and every competing line", "why_tests_cant": "Optimality quantifies over all lines.", "anchors": ["src/LeastSquares.cpp:fitLinearVertical"]}
{"id": "C43", "title": "Exponential moving averages stay within the sample range", "statement": "Each EMA lies between the minimum and maximum of the samples added; while count*decay <= 1 it equals the mean.", "quantifier": "every sample sequence and every decay in (0,1)", "why_tests_cant": "Convexity over unbounded histories.", "anchors": ["src/StatsEMA.cpp:add", "include/Lintel/StatsEMA.hpp:updateEMA"]}
{"id": "C44", "title": "Clock Tfrac conversions round-trip", "statement": "TfracToSec/TfracToMicroSec/TfracToNanoSec/TfracToTll/TfracToStructTimeval of secMicroToTfrac / secNanoToTfrac return the original seconds and micro/nanoseconds, with the double rounding done by the code; the conversion is strictly increasing and gives the least Tfrac not before the instant; extraction from any Tfrac is exact; TfracToDouble is correctly rounded and secondsToTfrac of a nonnegative double is within half a Tfrac; TfracOffsetDouble moves by that amount in either direction.", "quantifier": "every 32-bit second and every sub-second value", "why_tests_cant": "4e18 pairs; rounding corner cases.", "anchors": ["include/Lintel/Clock.hpp:secMicroToTfrac,secNanoToTfrac,TfracToNanoSec,TfracToMicroSec"]}
{"id": "C45", "title": "Random number helpers stay in range and are unbiased", "statement": "randInt(max) < max; randIntUnbiased returns the result of the first accepted word and every result is accepted from equally many of the 2^32 words, at least half of them being accepted; randLongLong is two words side by side; randBoolFast hands out each bit of each pair of words once; randDoubleOpen/53 lie in [0,1) and are the exact quotients, Closed in [0,1] reaching 1 only for the largest draw; the tempering step is a bijection of 32-bit words.", "quantifier": "every 32-bit generator output and every max > 0", "why_tests_cant": "2^32/2^64 cases; bias is a counting statement.", "anchors": ["include/Lintel/RandomBase.hpp", "include/Lintel/MersenneTwisterRandom.hpp:randInt"]}
{"id": "C46", "title": "MT_random_shuffle permutes", "statement": "The shuffled range is a permutation of the original, whatever the generator hands out; every permutation is produced by some draws; and for different elements each permutation belongs to exactly one sequence of choices, so none is favoured by the algorithm.", "quantifier": "every range and every generator behaviour", "why_tests_cant": "n! outcomes.", "anchors": ["include/Lintel/MersenneTwisterRandom.hpp:MT_random_shuffle"]}
{"id": "C47", "title": "Atomic operations are linearizable", "statement": "Under any interleaving of threads, fetch_add/sub/or/and/xor, exchange, compare_exchange, ++/-- take effect atomically: no update is lost and each returns the value before (or after) its own effect in one total order.", "quantifier": "every number of threads, every schedule", "why_tests_cant": "Schedules are unbounded.", "anchors": ["include/Lintel/AtomicCounter.hpp"]}
{"id": "C48", "title": "Spin locks give mutual exclusion", "statement": "At most one thread is between a completed lock() and its unlock(), under every schedule.", "quantifier": "every number of threads, every schedule, every spin length", "why_tests_cant": "Needs adversarial schedules; counter wrap-around needs 2^32 spins.", "anchors": ["include/Lintel/Lock.hpp:AtomicSpinLock,GlibcPosixSpinLock,SpinLockYield"]}
{"id": "C49", "title": "Lock ordering groups exclude deadlock", "statement": "If all locks of a group are taken through PThreadScopedLock with the group and a fixed level per mutex, then in no reachable state do threads wait for each other in a cycle; an out-of-order acquisition aborts instead.", "quantifier": "every number of threads, mutexes and every schedule", "why_tests_cant": "Deadlock depends on schedules.", "anchors": ["include/Lintel/LockOrderingGroup.hpp", "include/Lintel/PThread.hpp.in:PThreadScopedLock,PThreadScopedUnlock"]}
{"id": "C50", "title": "LintelLog debug levels follow the latest matching setting", "statement": "The level of a category is the level of the latest setDebugLevel call that matches it (exactly, or by a trailing-* prefix), no matter whether the category was first used before or after that call; ids are stable and distinct; the storage of the levels never moves while readers without lock use it; parseDebugString sets exactly the levels its text names; every message goes once to each appender in order, or to the console.", "quantifier": "every history of setDebugLevel, parseDebugString, wouldDebug, Category, getDebugLevel, setKnownCategories, reserveCategories, addAppender and log calls", "why_tests_cant": "The level depends on the whole history and its order; tests try a few orders.", "anchors": ["src/LintelLog.cpp:setDebugLevel 75-114", "src/LintelLog.cpp:lockedCategoryToId 244-266", "src/LintelLog.cpp:parseDebugString 52-66", "src/LintelLog.cpp:log 201-220", "src/LintelLog.cpp:maybeCategoryLimitWarning 232-242"]}
{"id": "C51", "title": "StatsMaker picks the most specific definition", "statement": "make(name) uses the definition of the longest dash-delimited prefix of name that has been defined, else the default definition.", "quantifier": "every set of definitions and every name", "why_tests_cant": "All names.", "anchors": ["src/StatsMaker.cpp:getDefaultStatDef"]}
{"id": "C52", "title": "Usage word wrapping keeps the text and bounds line length", "statement": "basicWordWrap changes only whitespace (some spaces become newlines, newlines are inserted inside over-long words), terminates, never fails its internal assertions, and no output line is longer than the width.", "quantifier": "every text and every width", "why_tests_cant": "Placement depends on the text.", "anchors": ["src/ProgramOptions.cpp:basicWordWrap"]}
{"id": "C53", "title": "StatsSeriesGroup assigns each sample to its time interval", "statement": "With non-decreasing times each sample is counted in interval floor((t-start)/interval); samples going back in time are rejected.", "quantifier": "every non-decreasing time sequence, every positive interval", "why_tests_cant": "Gaps of arbitrary length.", "anchors": ["src/StatsSeriesGroup.cpp:addTimeSeq"]}
{"id": "C54", "title": "Double tolerance comparisons are coherent", "statement": "eq is symmetric, lt/gt exclude eq, exactly one of lt, eq, gt holds for ordered numbers and leq = lt or eq.", "quantifier": "all pairs of numbers (exact arithmetic), all positive epsilons", "why_tests_cant": "Pairs of doubles.", "anchors": ["include/Lintel/Double.hpp:eq,lt,leq,gt,geq"]}
{"id": "C55", "title": "StatsRW overall statistics are the combination of reads and writes", "statement": "Until an explicit All sample is added, the 'all' statistics hold exactly the read and write samples; after the first explicit All sample they hold exactly the explicit All samples.", "quantifier": "every sequence of read/write/all additions", "why_tests_cant": "History dependent.", "anchors": ["src/StatsRW.cpp:add"]}
{"id": "C56", "title": "Pushing an element of a deque onto the same deque", "statement": "push_back(d[i]) appends a copy of the i-th element and leaves all others unchanged, whether or not the push has to grow the deque.", "quantifier": "every reachable deque and every index of a stored element", "why_tests_cant": "The reference dangles only when the push grows, and use after destruction often goes unnoticed.", "anchors": ["include/Lintel/Deque.hpp:push_back,push_expand"]}
{"id": "C57", "title": "PriorityQueue selfVerify accepts every queue a client can build", "statement": "selfVerify() never aborts on a queue reached through the public operations.", "quantifier": "every comparator in <= or < form and every history", "why_tests_cant": "Ties between a parent and a child appear only for some insertion orders.", "anchors": ["include/Lintel/PriorityQueue.hpp:selfVerify"]}
{"id": "C58", "title": "Base64 encodeBackward treats the data as a big-endian integer", "statement": "encodeBackward writes the base-64 numeral, zero padded at the front, of the data read as a big-endian integer, and reads only the data.", "quantifier": "every byte string and digit count", "why_tests_cant": "A read before the buffer usually goes unnoticed.", "anchors": ["include/Lintel/Base64.hpp:encodeBackward"]}
{"id": "C59", "title": "toCSVform is read back by a CSV reader", "statement": "A CSV reader reading toCSVform(s) followed by a separator, line end or end of file gets s; distinct strings have distinct forms.", "quantifier": "every string", "why_tests_cant": "Depends on which special characters occur together.", "anchors": ["src/StringUtil.cpp:toCSVform"]}
{"id": "C60", "title": "prefixequal and suffixequal", "statement": "prefixequal(s, p) holds iff s starts with p; suffixequal(s, p) iff s ends with p.", "quantifier": "all pairs of strings", "why_tests_cant": "All relative lengths.", "anchors": ["src/StringUtil.cpp:prefixequal,suffixequal"]}
{"id": "C61", "title": "ByteBuffer calls with the buffer itself as source", "statement": "append(b) on b doubles its contents, assign(b) on b and b = b keep them.", "quantifier": "every reachable buffer", "why_tests_cant": "Whether the source pointer survives depends on the room left by the history.", "anchors": ["include/Lintel/ByteBuffer.hpp:append,assign,operator="]}
{"id": "C62", "title": "ByteBuffer reads streams completely and within the limit", "statement": "appendFromStream reads the requested amount or up to end of file; appendEntireStream always returns, having read the whole stream or filled the buffer, and never grows the storage beyond the larger of its size and the limit; the bytes read are appended in order.", "quantifier": "every reachable buffer, stream contents, amount and limit", "why_tests_cant": "Growth and end-of-file interact at every length.", "anchors": ["include/Lintel/ByteBuffer.hpp:appendFromStream,appendEntireStream"]}
{"id": "C63", "title": "ByteBuffer::replace outside the readable bytes is reported", "statement": "replace(offset, data, length) aborts when offset+length exceeds readAvailable().", "quantifier": "every buffer, offset and length", "why_tests_cant": "The sum of two size_t can wrap.", "anchors": ["include/Lintel/ByteBuffer.hpp:replace"]}
{"id": "C64", "title": "StatsQuantile keeps the promised error", "statement": "An object constructed with error eps for nbound samples, when the search for buffer sizes ends before its last step and yields no more buffers than cells per buffer, answers getQuantile(q), as long as it holds n <= nbound samples, with a sample whose rank in sorted order is within eps*n of the requested rank; if other such objects were merged into it when non-empty, the samples they stood for are counted once more.", "quantifier": "every eps, nbound, sample sequence, merge history and quantile", "why_tests_cant": "The error bound is a worst case over all input orders and all collapse schedules.", "anchors": ["src/StatsQuantile.cpp:StatsQuantile,add,collapse,getQuantile"]}
{"id": "C65", "title": "Gaussian elimination keeps and finds the solutions", "statement": "gaussEliminate keeps the set of solutions of the linear system; when it returns the number of requested columns these columns are unit columns, so for n equations in n unknowns the last column is the unique solution.", "quantifier": "every matrix of every size (exact arithmetic)", "why_tests_cant": "All matrices; pivoting makes the path depend on the data.", "anchors": ["src/Matrix.cpp:gaussEliminate,swapRows,divRow,accumMultiply", "include/Lintel/Matrix.hpp:get,set"]}
{"id": "C66", "title": "HashUnique is a set", "statement": "Every sequence of exists, add, addOrReplace, remove, clear, reserve, size and full iteration on a HashUnique gives the answers of a mathematical set: add says whether the key is new, a key is kept once, iteration lists every member once, remove of an absent key aborts only when asked to.", "quantifier": "every sequence of operations, every key type with a hash compatible with its equality", "why_tests_cant": "membership after growth, removal and slot reuse depends on the whole history", "anchors": ["include/Lintel/HashUnique.hpp:HashUnique"]}
{"id": "C67", "title": "MersenneTwisterRandom is MT19937, reproducible and never dies out", "statement": "After init(seed) the object hands out exactly the published MT19937 sequence of that seed, for any number of calls and whatever it held before; seeding with a nonempty array likewise gives a sequence that depends on the array only; among any 624 consecutive outputs some is nonzero; seeding again reproduces all outputs.", "quantifier": "every seed or seed array, every earlier content of the object and every number of draws", "why_tests_cant": "2^32 seeds (unboundedly many arrays) and unbounded histories; the in-place update must hand out the recurrence at every position.", "anchors": ["src/MersenneTwisterRandom.cpp:init,initArray,reloadArray", "include/Lintel/MersenneTwisterRandom.hpp:randInt", "include/Lintel/RandomBase.hpp:init"]}
{"id": "C68", "title": "Marsaglia generators follow their published recurrences", "statement": "MarsagliaRNGMicro hands out the words of Marsaglia's four-word xor-shift generator started from the seed; the lagged generators (Tiny ... Huge) hand out X_n = (B-1) - ((A*X_{n-SIZE} + C) mod B) with carry C = floor(. / B), B = 2^32-1 and 0 <= C < A, never index outside their array, and the same seed always gives the same words.", "quantifier": "every seed, every state, every array size 2^k and multiplier A < 2^31, every number of draws", "why_tests_cant": "A wrong word of state or a deviation at one product in 2^32 is invisible in sample statistics; the sequences are far too long to enumerate.", "anchors": ["include/Lintel/MarsagliaRandom.hpp: MicroRandInner, MarsagliaInner, Marsaglia"]}
{"id": "C69", "title": "Timed waits end at the right time", "statement": "PThreadCond::timedWait(mutex, seconds) waits until a normalised absolute time that is now + seconds to the nanosecond, exactly for whole seconds, never earlier for a longer wait; a negative wait is refused. PThreadMutex::timedLock gives up only once the clock has reached the deadline, takes the mutex at the first attempt that succeeds, and never sleeps past the deadline or longer than 10 ms at a time.", "quantifier": "every current time, every nonnegative double, every history of trylock results and clock readings", "why_tests_cant": "carries between nanoseconds and seconds and the rounding of doubles go wrong at isolated values; the history of other threads is not under the control of a test", "anchors": ["include/Lintel/PThread.hpp.in:PThreadCond::timedWait", "include/Lintel/PThread.hpp.in:PThreadMutex::timedLock", "src/PThread.cpp:pthread_mutex_timedlock"]}
{"id": "C70", "title": "stringToInteger converts exactly the numerals that fit", "statement": "stringToInteger<T>(str, base) returns v exactly when str is a numeral of that base (8, 10 or 16) for v and v is a value of T; every other text, a value outside the range of T and any other base make it assert.", "quantifier": "every text, every integral type (any width, signed or not), every base", "why_tests_cant": "boundary values of every width and unboundedly many malformed texts", "anchors": ["include/Lintel/StringUtil.hpp:stringToInteger"]}
{"id": "C71", "title": "getNCpus counts the processors once", "statement": "PThreadMisc::getNCpus returns NUMBER_OF_PROCESSORS when it is set and otherwise the number of lines of /proc/cpuinfo that begin with the processor key; the result is positive, it asserts when there is none, and later calls return the same number whatever has changed since.", "quantifier": "every value of the environment variable, every content of the file, every later change", "why_tests_cant": "the environment and the file are fixed on the machine of the test", "anchors": ["src/PThread.cpp:PThreadMisc::getNCpus"]}
{"id": "C72", "title": "Histogram mode and percentile", "statement": "StatsHistogramUniform::mode is the centre of a most used bin. percentile(p) lies in the bin that holds the p-th part of the samples: fewer than p of them are below the bin and at least p are below its end; it grows with p, never reads outside the bins, and p outside [0, 1] is refused.", "quantifier": "every sequence of samples, every p, every epsilon of Double; safety for every double p and up to 2^53 samples", "why_tests_cant": "ties, empty bins and rounding of p*count produce unboundedly many boundary cases", "anchors": ["src/StatsHistogram.cpp:StatsHistogramUniform::mode", "src/StatsHistogram.cpp:StatsHistogramUniform::percentile"]}
{"id": "C73", "title": "Accumulating uniform histogram sums the right data in the right bin", "statement": "For every sequence of add(index, data), the accumulating uniform histogram has the same range and counts as a plain uniform histogram given the indexes, its statistics are those of the data, and value(i) is the sum of the data of exactly the samples whose index lies in bin i (the end bins of a fixed histogram also take the outliers), also after the range was doubled any number of times and after reset().", "quantifier": "all ranges, even bin counts and sequences of (index, data) pairs, scalable or fixed", "why_tests_cant": "the doubling loops merge both arrays in place any number of times; a misplaced merge shows only for particular histories, and the odd bin count overflow corrupts the heap silently", "anchors": ["src/StatsHistogram.cpp: StatsHistogramUniformAccum::StatsHistogramUniformAccum", "src/StatsHistogram.cpp: StatsHistogramUniformAccum::add", "src/StatsHistogram.cpp: StatsHistogramUniformAccum::reset", "src/StatsHistogram.cpp: StatsHistogramUniformAccum::value"]}
{"id": "C74", "title": "The logarithmic histogram counts every positive sample once, in the right bin", "statement": "A StatsHistogramLog counts each positive sample in exactly one bin. The ends of the bins form a geometric progression from low() to high(). When scalable, the range is widened until it holds every sample and bin i counts exactly the samples in [binlow(i), binhigh(i)); when fixed, the end bins also take what is outside. mode() is the logarithmic centre of a fullest bin, percentile(p) lies in the bin where the p-th part of the samples is reached and grows with p. Values that are not positive are refused.", "quantifier": "every bin count, range, sequence of samples and p; the number of doublings is not bounded", "why_tests_cant": "the widening loops merge bins in place any number of times in both directions, and a misplaced sample shows only for particular sequences of samples", "anchors": ["src/StatsHistogram.cpp: StatsHistogramLog", "include/Lintel/StatsHistogram.hpp: StatsHistogramLog"]}
{"id": "C75", "title": "The accumulating logarithmic histogram sums the right data in every bin", "statement": "StatsHistogramLogAccum::add(index, data) counts the pair in the bin of index and adds data to value() of that bin and to the statistics; add(v) is add(v, v). value(i) is the sum of the data whose index is in bin i.", "quantifier": "every bin count, range and sequence of (index, data) pairs", "why_tests_cant": "the sums depend on the whole history", "anchors": ["src/StatsHistogram.cpp: StatsHistogramLogAccum", "include/Lintel/StatsHistogram.hpp: StatsHistogramLogAccum"]}
{"id": "C76", "title": "isDoubleIntegral accepts a double exactly when it is near an integer, and convertDoubleLong then gives that integer", "statement": "isDoubleIntegral(d, sizeof(long)) returns true exactly when d is within 1/16 of an integer and precise enough for that to mean something (up to 2^49 in absolute value); it aborts for a target that is not a long or long long. convertDoubleLong(d) returns the integer nearest to d, halves away from zero, whenever that fits in a long. A d that passed the test converts to the integer it is within 1/16 of.", "quantifier": "every double and every target size", "why_tests_cant": "The claim is about every one of 2^64 doubles; the failures (a double next to one half, odd integers above 2^52, NaN) are isolated points.", "anchors": ["src/MathSpecialFunctions.cpp: roundingErrorPart, isDoubleIntegral, convertDoubleLong, convertDoubleLongLong", "include/Lintel/MathSpecialFunctions.hpp: isDoubleIntegral, convertDoubleLong"]}
{"id": "C77", "title": "inverseErf terminates and inverts erf to 14 digits", "statement": "For |y| < 1, inverseErf(y) returns an x with erf(x) within 10^-14 of y relatively; for |y| >= 1 it returns NaN. inverseUnitNormalCDF(p) is the corresponding normal quantile.", "quantifier": "every argument y, every p, and, for the double results, every behaviour of sqrt, log, exp and erf", "why_tests_cant": "The loop has no iteration bound, so termination is a statement about every starting point; sampling cannot exclude an argument on which it cycles.", "anchors": ["src/MathSpecialFunctions.cpp: inverseErf", "include/Lintel/MathSpecialFunctions.hpp: inverseUnitNormalCDF"]}
{"id": "C78", "title": "A failed INVARIANT never continues, reports once, and runs the hooks around the report", "statement": "When the condition of an INVARIANT is false, the code after it never runs, whatever hooks are registered. The hooks registered with AssertBoostFnBefore since the last AssertBoostClearFns run first, in order of registration; then exactly one report with the expression, file, line and message is written; then the hooks registered with AssertBoostFnAfter run in order; then the process aborts. A hook that throws an AssertBoostException stops this before the report, the client can catch it with the right data, and the next assertion behaves as if the first had not happened. An assertion that fails inside a hook is reported without running hooks again and ends the process, so there is no unbounded recursion. A message that cannot be formatted still gives a report.", "quantifier": "all programs built from output, exceptions, try/catch, invariants and registration calls; all lists of hooks, each an arbitrary such program that may depend on the data of the failure; all messages", "why_tests_cant": "Tests fail one assertion at a time with one or two hooks; they cannot cover every combination of hooks that throw, fail, register, or are reached from inside other hooks, nor that no combination continues past a failed assertion.", "anchors": ["src/AssertBoost.cpp: AssertBoostFail", "src/AssertBoost.cpp: AssertBoostFnBefore", "src/AssertBoost.cpp: AssertBoostFnAfter", "src/AssertBoost.cpp: AssertBoostClearFns", "src/AssertBoost.cpp: AssertBoostCleanupRecurse", "src/AssertBoost.cpp: AssertBoostThrowExceptionFn", "include/Lintel/AssertBoost.hpp: INVARIANT"]}
{"id": "C79", "title": "The cycle-counter clock is safe, steady between calibrations and accurate", "statement": "Whatever the cycle counter and gettimeofday answer, and however intervals are set and clocks are made, Clock::todccTfrac and the calls before it either fail an INVARIANT or give an answer; no conversion of a double to an integer is undefined. An answer for which gettimeofday was not called is not earlier than the answer before it. It differs from the true time by at most the quantum of gettimeofday, the time one calibration may take, and the error of the measured clock rate over one recalibration interval; with the default interval and a rate that is right within one per cent that is 112 microseconds. With AUFSO_UseTod, or with AUFSO_Slow on a machine that may scale its frequency, every answer is that of gettimeofday. A clock goes on answering as long as the time of day does not go back.", "quantifier": "all sequences of allowUnsafeFrequencyScaling, calibrateClock, Clock construction, setRecalibrateIntervalSeconds and todccTfrac calls; all 64-bit readings of the counter and the time of day; all measured clock rates and latencies; all true clock rates", "why_tests_cant": "A test sees one machine with one clock rate for a few seconds; overflow of the counter difference, conversions out of range and time running backwards depend on readings it cannot produce.", "anchors": ["include/Lintel/Clock.hpp: todccTfrac", "include/Lintel/Clock.hpp: todccTfrac_incremental", "src/Clock.cpp: todccTfrac_recalibrate", "src/Clock.cpp: setRecalibrateIntervalSeconds", "src/Clock.cpp: setClockRate", "src/Clock.cpp: calibrateClock", "src/Clock.cpp: allowUnsafeFrequencyScaling", "include/Lintel/Clock.hpp: todTfrac"]}
{"id": "C80", "title": "PThread objects run one thread at a time and join returns its result", "statement": "Under every schedule: run() of one PThread object is never active in two threads, and a thread enters it once; start() of an object whose thread has not been joined fails and changes nothing, so no thread is lost; join() waits exactly until run() has returned in the thread that the last start() made, and returns its value; kill() signals that thread. A thread of a PThreadNoSignals has every signal blocked, a thread of a PThread has the mask of its creator, and start() leaves the mask of its caller as it was. A client that keeps its threads joinable, joins before it destroys and signals only threads it has not joined meets no undefined behaviour.", "quantifier": "all sequences of construction, setDetached, start, join, kill, destruction and signal mask changes by one client over any number of objects, interleaved in every way with the threads; all results of pthread_create and pthread_kill; all values returned by run()", "why_tests_cant": "A test sees a few schedules of a few threads; it cannot show that no interleaving loses a thread, mixes up two results or leaves signals blocked.", "anchors": ["src/PThread.cpp: PThread::start", "src/PThread.cpp: PThread::join", "src/PThread.cpp: PThread::kill", "src/PThread.cpp: PThread::setDetached", "src/PThread.cpp: PThreadNoSignals::start", "src/PThread.cpp: pthread_starter", "include/Lintel/PThread.hpp.in: PThread"]}
{"id": "C81", "title": "drawRandomLogNormal fits and draws a truncated log-normal distribution", "statement": "For every desired mean, standard deviation and upper limit: the moments that the program computes are the integrals of the log-normal density below the limit, divided by its mass there; its density is normalised by that mass; the two-variable Newton search ends after at most the given number of evaluations, and success means that the deviations are within the tolerance or the last step was; the fit has the desired mean and variance up to 0.001; the number printed is positive and does not exceed the limit, and is the exponential of the first number of the polar method below the transformed limit; wrong arguments give the usage message.", "quantifier": "all parameters, all functions and starting points of the search, all sequences of uniform random numbers, all argument lists", "why_tests_cant": "The moments are improper integrals for a continuum of parameters, and whether a search that reports success found a fit depends on the whole path of iterates; tests see a few parameters.", "anchors": ["src/drawRandomLogNormal.cpp: logNormal, momentLogNormal, solve2, findZero, targetFunc, solveLogNormal, normal_random_limit, main"]}
{"id": "C82", "title": "HashTupleStats and StatsCube own their statistics", "statement": "Each key of a HashTupleStats (or of the cube of a StatsCube) has its own statistics object, made on first use by the factory; a reference to it stays valid and stays that key's until the entry is pruned or cleared, however the table grows; walks show each object once, walkOrdered in increasing order of the keys; prune removes exactly the entries its predicate accepts, also when the predicate has state or throws; every object is deleted exactly once, by prune, clear or the destructor, and none is used after that. Exceptions thrown by the factory or by callbacks, null factories and copies are part of the histories.", "quantifier": "all key types with an equality, hash and order, all statistics types, all sequences of operations, all behaviours of factories, walk functions and prune predicates", "why_tests_cant": "Leaks, double deletes and dangling references depend on which entries share a chain, when the table grows, and at which call a callback throws; a test sees a few of these.", "anchors": ["include/Lintel/HashTupleStats.hpp: HashTupleStats::getHashEntry, walk, walkOrdered, walkZeros, prune, clear, ~HashTupleStats", "include/Lintel/StatsCube.hpp: StatsCube::getCubeEntry, walk, walkOrdered, prune, clear", "include/Lintel/HashTable.hpp: iterator_base::partialReset"]}
{"id": "C83", "title": "Program options hold what was given last", "statement": "A ProgramOption returns the value the latest successful parse found for it or the latest set() gave it, whichever is later, and its default while there was neither; used() says which. Options without a value become true when found and keep what set() says until found again. An option made after a parse takes part in the next one and is not affected by earlier ones; a value given to a visible option wins over a hidden one of the same name; a parse that throws changes no option; arguments left over are returned, or abort the program when they are not allowed; help prints the usage and ends the program. Options that no longer exist, the environment and arguments after -- do not disturb this.", "quantifier": "all sets of options and orders in which they are made, set, read and parsed, all command lines and files, all behaviours of the underlying parsers including exceptions, all values of COLUMNS", "why_tests_cant": "A test runs one order of construction and parsing with one environment; registration is deferred to the next parse and kept in globals, so the outcome depends on the whole history of the process.", "anchors": ["include/Lintel/ProgramOptions.hpp: ProgramOption, ProgramOption<bool>, TestingOption, parseConfigFile", "src/ProgramOptions.cpp: parseCommandLine, basicParseCommandLine, processOptions, runProgramOptionInitFns, getHelpWidth, programOptionsDesc"]}
{"id": "C84", "title": "A HashTable can be scanned in turns with updates between them", "statement": "An iterator kept across updates and continued with partialReset(), one chain per turn (until atStartOfChain()), shows only elements in the table at that turn and each at most as often as it is there; no two turns show equal elements; it reaches end() within as many turns as there are chains; and an element that was in the table all the time is shown. reset() brings the iterator back to begin().", "quantifier": "every hash function and equality consistent with it, every history of table operations before the scan, every sequence of batches of operations between its turns", "why_tests_cant": "The guarantee is over every interleaving of a scan with updates; a removal moves elements within chains and frees and reuses slots, and a test runs a handful of schedules with one hash function.", "anchors": ["include/Lintel/HashTable.hpp: iterator_base::partialReset", "include/Lintel/HashTable.hpp: iterator_base::atStartOfChain", "include/Lintel/HashTable.hpp: iterator_base::atEndOfChain", "include/Lintel/HashTable.hpp: iterator_base::reset", "include/Lintel/HashTable.hpp: iterator_base::findNonemptyChain"]}
{"id": "C85", "title": "Pointers into a HashTable stay valid while there is room", "statement": "A pointer returned by add, addOrReplace or lookup, and a reference returned by HashMap operator[], keeps designating its element and shows what was last written through it until the element is removed, the table is cleared or it holds more elements than it had room for; reserve(n) makes room for n elements, and the room never shrinks. add() of an element of the table itself adds a copy of it. m[a] = m[b] gives m[a] the value of m[b].", "quantifier": "every hash function and consistent equality, every growth policy of the vector, every client program of table operations and writes through pointers before and after the pointer was obtained", "why_tests_cant": "Whether a pointer dangles depends on the number of elements, earlier removals and the growth policy of the library; reading freed memory usually shows the old value, so tests pass.", "anchors": ["include/Lintel/HashTable.hpp: HashTable::add", "include/Lintel/HashTable.hpp: HashTable::addOrReplace", "include/Lintel/HashTable.hpp: HashTable::lookup", "include/Lintel/HashTable.hpp: HashTable::reserve", "include/Lintel/HashTable.hpp: HashTable::internalAdd", "include/Lintel/HashMap.hpp: HashMap::operator[]"]}
{"id": "C86", "title": "A TEST_INVARIANT test passes exactly when the code fails as expected", "statement": "TEST_INVARIANT_MSGVEC(code, messages), and its one, two and three message forms, let the test go on, with no assertion hooks left, exactly when the code failed an invariant whose message is listed. If the code runs to its end, or fails with another message, the test program dies and the report names the message and the place. Exceptions of other classes pass through.", "quantifier": "every code under test (output, invariants with any message, exceptions, try blocks), every message list, every later program", "why_tests_cant": "The macro is what tests are written with: a test that passes for the wrong reason looks the same as one that passes. Whether it does depends on the code under test, which may handle failures itself.", "anchors": ["include/Lintel/TestUtil.hpp: TEST_INVARIANT_MSGVEC, TEST_INVARIANT_MSG1, TEST_INVARIANT_MSG2, TEST_INVARIANT_MSG3", "src/AssertBoost.cpp: AssertBoostThrowExceptionFn, AssertBoostClearFns"]}
{"id": "C87", "title": "getDeptoolInfo reports the system of the environment or of deptool", "statement": "If BUILD_OS and UNAME_M are set and not empty, getDeptoolInfo returns them, with BUILD_OS split at its first dash, and runs no process. Otherwise it runs deptool (or perl with the script in DEPTOOL) and returns the last setting of each variable in its output, or the value of the environment for a variable that is not set there. osVersion and osVersionArch put the parts together again. A setting that cannot be understood, a missing value or a missing dash is an error; if deptool is not present the structure is empty.", "quantifier": "every environment, every output of the process", "why_tests_cant": "The answer depends on the environment and on the bytes another program prints; a test sees one system.", "anchors": ["src/TestUtil.cpp: getDeptoolInfo, extractEnv, getEnv", "include/Lintel/TestUtil.hpp: DeptoolInfo"]}
{"id": "C88", "title": "Clock::perThread gives each thread its own clock", "statement": "Once Clock::perThreadInit has returned, Clock::perThread returns a clock in every thread, the same at every call of a thread, and different ones in different threads, whatever other threads do, including further calls of perThreadInit and other code with pthread keys of its own. The clock is calibrated exactly once. Before perThreadInit, perThread fails. Calls do not deadlock.", "quantifier": "every interleaving of any number of threads making any calls of both functions, every numbering of keys, every use of pthread keys by other code", "why_tests_cant": "The result depends on the schedule, on the key numbers the system hands out and on what other libraries have done before.", "anchors": ["src/ClockPThread.cpp: Clock::perThreadInit, Clock::perThread", "include/Lintel/Clock.hpp: Clock"]}
{"id": "C89", "title": "Standard deviation and confidence interval of Stats", "statement": "After any sequence of adds, merges and resets, stddev() and conf95() of a Stats object with finite samples are finite and not negative, mean() is no larger than its largest sample in magnitude up to a power of two, and mean(), variance(), stddev() and conf95() are those of its samples up to stated rounding errors. Equal samples have no deviation. Without samples stddev() is 0 and conf95() is DBL_MAX. resets() tells how often the object was reset.", "quantifier": "every program of adds, merges and resets over any number of objects, every finite double as sample", "why_tests_cant": "Whether rounding makes the variance negative, infinite or not a number depends on all the bits of all samples and the order they were combined in.", "anchors": ["src/Stats.cpp: StatsBase::stddev, StatsBase::relconf95, Stats::mean, Stats::variance, Stats::conf95, StatsBase::reset", "include/Lintel/Stats.hpp: StatsBase, Stats"]}
{"id": "C90", "title": "Decoding ASCIIbeticalB64 in several threads", "statement": "ASCIIbeticalB64::decode gives in every thread what it gives in a program with one thread, whatever other threads decode at the same time; in particular it gives back the bytes that were encoded.", "quantifier": "every number of threads, every interleaving of their reads and writes, every data", "why_tests_cant": "The result depends on the interleaving of the first calls, of which a test sees few.", "anchors": ["include/Lintel/Base64.hpp: ASCIIbeticalB64::detranslate, ASCIIbeticalB64::decode"]}
{"id": "C91", "title": "PriorityQueue calls with a reference to its own element", "statement": "push(x) and replaceTop(x) treat x by its value at the call also when x is a reference to an element of the same queue, such as top().", "quantifier": "every reachable queue, element, comparator and new value", "why_tests_cant": "Whether the referred slot is overwritten before it is read depends on the shape of the heap, on ties and on the capacity.", "anchors": ["include/Lintel/PriorityQueue.hpp: push, replaceTop, top, double_size"]}
{"id": "C92", "title": "reset and another_new give an empty statistic of the same kind", "statement": "After any sequence of samples and resets, reset() puts a statistics object back into the state its constructor left it in, and another_new() returns a new empty object of the same class and configuration: given the same samples, the new object and the reset one give the same answers.", "quantifier": "all statistics classes, all constructor arguments, all histories of add() and reset()", "why_tests_cant": "a test resets one object after a few samples; whether every part of the configuration survives every history (ranges that doubled or grew, arrays of the derived class) needs an argument over all histories and all classes, including those that inherit the function", "anchors": ["include/Lintel/Stats.hpp: Stats::reset, Stats::another_new", "src/Stats.cpp: Stats::another_new", "src/StatsHistogram.cpp: StatsHistogramUniform::reset, another_new, StatsHistogramLog::another_new, StatsHistogramUniformAccum::another_new, StatsHistogramLogAccum::another_new, StatsHistogramGroup::reset", "src/StatsSeries.cpp: StatsSeries::another_new", "src/StatsSeriesGroup.cpp: StatsSeriesGroup::reset"]}
{"id": "C93", "title": "Rounding does not change which quantile is returned", "statement": "For n samples and every k from 1 to n, getQuantile((double)k / n) returns the k-th smallest of the values the object stands for, however the division and the subtraction of 1e-15 round: the k-th smallest sample while the samples fit into the buffers, and within the promised error afterwards. Any other double q in [0,1] gets the value of rank ceil(n*q) or the one before; every other double, NaN included, is refused.", "quantifier": "all histories of the object, all sample counts below 1e14, all k, all doubles", "why_tests_cant": "the comment in the code gives one pair (131058 of 150000) where the division used to round to the wrong rank; that the 1e-15 repairs all pairs k, n up to 1e14 and breaks none is a statement about some 1e28 roundings", "anchors": ["src/StatsQuantile.cpp: StatsQuantile::getQuantile, getQuantileByBinSearchIndex", "include/Lintel/StatsQuantile.hpp: StatsQuantile"]}
{"id": "C94", "title": "StatsQuantile prints each requested quantile once, in order", "statement": "printTextRanges(N), and the first part of printRome, print one value for each quantile i/N, 0 < i < N, and no other, although the argument is accumulated in doubles: each value has the rank wanted up to one and the rounding of the argument, the values never decrease, every tenth line starts with its percentage. printTextTail prints 90%, 95%, 99%, 99.5% and so on while ten samples lie in the tail (printRome: one sample), each at the nearest double. An object without samples prints none; a negative number of ranges aborts; printing does not change what the object stands for.", "quantifier": "all histories of the object, all sample counts below 1e14, all numbers of ranges up to 8192 (a weaker bound up to 2^31)", "why_tests_cant": "whether the sum of N rounded steps stays on the right side of 1 within the tolerance depends on N in an irregular way: the first N that prints one line too many is in the tens of thousands", "anchors": ["src/StatsQuantile.cpp: StatsQuantile::printTextRanges, printTextTail, printRome", "src/Double.cpp: Double::default_epsilon", "include/Lintel/Double.hpp: Double::lt"]}
{"id": "C95", "title": "posix::readN reads all it was asked for, within the buffer", "statement": "readN(fd, buf, nbyte) stores the next nbyte bytes of the descriptor in buf and returns nbyte, or stores all the bytes up to the end of file and returns their number, however the kernel splits them into reads, and changes nothing behind the first nbyte bytes of buf; read0 succeeds exactly when one read delivers all nbyte bytes; a failing read aborts.", "quantifier": "all descriptors (contents, lengths of the single reads, points of failure), all buffers and lengths", "why_tests_cant": "short reads depend on pipes, sockets, signals and timing; a test reading a regular file never sees one", "anchors": ["include/Lintel/Posix.hpp: posix::read, posix::read0, posix::readN"]}
{"id": "C96", "title": "The autocorrelation test of StatsSeries follows the Fisher statistic", "statement": "iscorrelated95(lag) says true exactly when the sample autocorrelation r at the lag makes sqrt(n-3)*artanh(r) at least 1.96 (n samples since the last reset), that is when r is at least tanh(1.96/sqrt(n-3)); with up to three samples or a constant series it says false; a lag beyond the maximum aborts.", "quantifier": "all histories of samples and resets, all lags", "why_tests_cant": "the answer is a threshold on a function of all samples; a test checks a few series far from the threshold", "anchors": ["src/StatsSeries.cpp: StatsSeries::iscorrelated95", "include/Lintel/StatsSeries.hpp: StatsSeries::autocorrelation"]}
{"id": "C97", "title": "Adding a StatsQuantile to itself counts every sample twice", "statement": "After q.add(q), for a StatsQuantile q with samples x1..xn, count() is 2n and getQuantile answers as for the 2n samples x1..xn x1..xn; an empty q stays empty.", "quantifier": "all buffer sizes, all lists of samples, all quantiles", "why_tests_cant": "whether it works depends on the number of samples relative to the size of the buffers; a test with one number of samples settles nothing", "anchors": ["src/StatsQuantile.cpp: StatsQuantile::add(const Stats &), addQuantile, getQuantile"]}
{"id": "C98", "title": "XML elements set the debug level they name", "statement": "LintelLogXML::parseXML(node) sets the level of the category (or prefix*) in the attribute \"category\" to the number in the attribute \"level\", or to 1 when there is none, exactly as setDebugLevel does, and aborts without effect when the level is not a number or too large.", "quantifier": "all nodes (any attributes and texts), in all programs of LintelLog calls", "why_tests_cant": "the texts of an attribute are unbounded, and the levels in force depend on the whole history of settings", "anchors": ["src/LintelLogXML.cpp: LintelLogXML::parseXML", "src/XMLUtil.cpp: strGetXMLAttr", "src/LintelLog.cpp: setDebugLevel"]}
{"id": "C99", "title": "StatsMaker makes exactly what was asked for last", "statement": "After any history of setModeSimple, setModeHistogram, setModeHistogramGroup and setModeSequence calls (modes by value or by name), make(name) creates an object of the class and with the arguments of the latest setting of the name it resolves to, whatever kinds were set for that name before; makeRW(name) creates the three objects for name-read, name-write and name-all; a mode name that does not exist aborts; no uninitialised setting is ever used.", "quantifier": "every sequence of setMode*, make and makeRW calls with all names and arguments", "why_tests_cant": "One definition record per name is reused and keeps fields of earlier settings, so the result depends on the whole history.", "anchors": ["src/StatsMaker.cpp:setModeHistogram,setModeHistogramGroup,setModeSequence,make,makeRW,makeHistogram,getHistMode", "include/Lintel/StatsMaker.hpp:statDefT", "src/StatsRW.cpp:StatsRW"]}
{"id": "C100", "title": "iteratorRangeEqual compares whole ranges and stays inside them", "statement": "iteratorRangeEqual is true exactly if both ranges have the same length and no pair of elements differs, and it never dereferences an iterator outside of its range, whatever the lengths are.", "quantifier": "all containers, element types with their operator!=, and valid ranges", "why_tests_cant": "Running off the end of the second range is invisible to a test unless the memory behind it is guarded.", "anchors": ["include/Lintel/STLUtility.hpp:iteratorRangeEqual"]}
{"id": "C101", "title": "stringPrintF returns the formatted text", "statement": "AssertExceptionT::stringPrintF(format, ...) returns exactly the text printf would print.", "quantifier": "all texts the format and the arguments can make", "why_tests_cant": "Messages of 1024 characters and more take another path than all shorter ones.", "anchors": ["src/AssertException.cpp:stringPrintF"]}
{"id": "C102", "title": "modifyTimeNanoSec is exact and ordered", "statement": "modifyTimeNanoSec returns the nanoseconds since 1970 of the modification time, so that comparing results compares times, for every time whose nanoseconds fit in 64 bits; a file that cannot be examined aborts.", "quantifier": "all times, before and after 1970", "why_tests_cant": "The products overflow only for extreme times.", "anchors": ["include/Lintel/FileUtil.hpp:modifyTimeNanoSec"]}
{"id": "C103", "title": "ProcessStatistics: get is fresh, getCached is the latest look", "statement": "get returns the size in bytes at the time of the call; getCached returns the one at the latest constructor, get or invalidate call; both convert pages to bytes and agree on which number is which; an unsupported kind or a file that cannot be read or has too few numbers aborts instead of returning a number.", "quantifier": "every sequence of get, getCached, invalidate and supported calls, with every contents of the process file at each of them", "why_tests_cant": "Staleness depends on the interleaving of calls with changes of the process.", "anchors": ["src/unstable/ProcessStatistics.cpp:get,getCached,invalidate,supported", "include/Lintel/unstable/ProcessStatistics.hpp"]}
{"id": "C104", "title": "A Matrix holds what was stored in it", "statement": "Every Matrix starts with zeros, get returns what set or setRow stored last at that row and column of that matrix since it was made or resized, matrices do not disturb each other, and all their memory is given back when they are gone.", "quantifier": "every program that makes, copies, resizes, changes, reads and destroys any number of matrices of all sizes, in debug and release builds", "why_tests_cant": "Index arithmetic in 32 bits, memory that is lost and arrays freed twice show up only for particular sizes and histories, and often not in results.", "anchors": ["include/Lintel/Matrix.hpp:Matrix,set,get", "src/Matrix.cpp:resize,setRow,setConstant,~Matrix"]}
{"id": "C105", "title": "Case conversion and character class tests cover every character", "statement": "downcaseString and upcaseString change exactly the letters of the other case and nothing else, are idempotent and agree with each other; stringIsBlank and stringIsSpace are true exactly if every character is a blank or white space; for all strings.", "quantifier": "all strings of bytes", "why_tests_cant": "The functions of <ctype.h> are defined for some integers only, and char is signed.", "anchors": ["src/StringUtil.cpp:downcaseString,upcaseString,stringIsBlank,stringIsSpace"]}
{"id": "C106", "title": "stringToDouble accepts exactly the strings that are a number as a whole", "statement": "stringToDouble returns the value of strtod if the whole string is a number for it and aborts for every other string, the empty one included.", "quantifier": "all strings, whatever strtod accepts", "why_tests_cant": "The end of the conversion is detected by a NUL, which a string may contain.", "anchors": ["src/StringUtil.cpp:stringToDouble"]}
{"id": "C107", "title": "The statistics classes give back the memory they take", "statement": "Whatever histograms, histogram groups and series a program constructs, adds to, resets and deletes, no array is deleted twice or in the wrong way, and the memory held is that of the living objects; after all are deleted none is held.", "quantifier": "all programs that construct, use and delete any number of such objects", "why_tests_cant": "Leaks and mismatched deletes do not change results and depend on the whole history of an object.", "anchors": ["src/StatsHistogram.cpp:constructors,destructors,StatsHistogramUniform::add", "src/StatsSeries.cpp:StatsSeries,~StatsSeries"]}
{"id": "C108", "title": "The safe pointer casts give the object asked for or stop the program", "statement": "safeDownCast of a null pointer is null; of a pointer to a base part of an object of the target class it is that object; for any other pointer it stops the program, even if dynamic_cast finds an object of the target class elsewhere in the whole object. safeCrossCast and safeRef never give null. Casting up and down again gives the same pointer.", "quantifier": "all class hierarchies, objects and pointers into them", "why_tests_cant": "It ranges over all class hierarchies, with classes that are a base several times.", "anchors": ["include/Lintel/PointerUtil.hpp:safeDownCast,safeCrossCast,safeRef"]}
{"id": "C109", "title": "fseek64, ftell64, fopen64 and freopen64 keep streams in order", "statement": "fseek64 moves the stream to the position asked for and returns 0 exactly if there is such a position; ftell64 gives the position also with data read ahead or pending; fopen64 accepts the modes r, rb, w and wb only; freopen64 moves a stream to another file without using up descriptors.", "quantifier": "all streams, offsets, kinds of seeks, modes and tables of descriptors", "why_tests_cant": "Success and failure are told apart by comparing numbers that may be equal by chance, and a lost descriptor shows up only after many calls.", "anchors": ["src/stdio_64.cpp:fseek64,ftell64,fopen64,freopen64"]}
{"id": "C110", "title": "SimpleScopedLock holds its mutex exactly while its scope lasts", "statement": "However threads are scheduled and however they leave the scope of a SimpleScopedLock, by its end or by an exception, a mutex has one holder at a time, only its holder gives it back, code in the scope is run by the holder only, and a thread that is done holds nothing.", "quantifier": "all programs of all threads, with nested scopes, exceptions and handlers, and all schedules", "why_tests_cant": "It ranges over schedules and over the ways to leave a scope.", "anchors": ["include/Lintel/SimpleMutex.hpp:SimpleMutex,SimpleScopedLock", "src/SimpleMutex.cpp:lock,unlock"]}
{"id": "C111", "title": "The raw data vector of a HashTable is exactly its elements or refused", "statement": "dense() is true exactly if the table has as many elements now as it ever had since it was made or cleared. Then unsafeGetRawDataVector gives a vector with each element of the table exactly once; otherwise it stops the program rather than show erased entries.", "quantifier": "all tables, hash functions that agree with equality and histories of operations", "why_tests_cant": "It depends on the whole history of additions, removals, erasures and clears.", "anchors": ["include/Lintel/HashTable.hpp:dense,unsafeGetRawDataVector"]}
{"id": "C112", "title": "chainLengthStats tells how the hash function spreads the elements", "statement": "chainLengthStats adds one number for each chain of the table: how many of its elements have a hash value that belongs to the chain. Erased elements are not counted and the numbers add up to size().", "quantifier": "all tables, hash functions that agree with equality and histories of operations", "why_tests_cant": "The chains are rebuilt, shortened and reused by any history; one case shows one table.", "anchors": ["include/Lintel/HashTable.hpp:chainLengthStats"]}
{"id": "C113", "title": "StatsCube with the supplied functions summarises samples or group means", "statement": "A StatsCube made without arguments has, after cube(), one entry for each pattern with at least one any that some key fits, holding the statistics of all samples that fit it; with cubeAll the keys themselves have entries too; with addMean an entry holds the statistics of the means of the groups, one for each distinct key that fits, however many samples it has.", "quantifier": "all lists of samples and keys, hash functions and arities", "why_tests_cant": "It ranges over data sets, patterns and the order in which a hash table is walked.", "anchors": ["include/Lintel/StatsCube.hpp:cubeAll,cubeHadAny,addFullStats,addMean,StatsCube,cube"]}
{"id": "C114", "title": "Calibrating the clock gives a rate backed by enough consistent measurements, or stops", "statement": "calibrateClock ends. If it succeeds the rate is the mean of the middle half of at least 40 measurements taken in a row with at most 128 failures, accepted by the confidence test, above 200 MHz; it lies between bounds that hold for each measurement, and a single measurement is off by at most half the gaps around its two readings of the time.", "quantifier": "all readings of the cycle counter and of the time of day, confidence tests and targets", "why_tests_cant": "It depends on what the machine does while measuring: being descheduled, moved to another core or noisy in any pattern.", "anchors": ["src/Clock.cpp:calibrateClock,setClockRate"]}
{"id": "C115", "title": "The latency and the quantum of the clock are measured robustly", "statement": "estimateTodTfracLatency returns the second smallest of five positive times per call, each measured over a whole quantum of the clock, leaving out steps back; the initial measurements take the first quartile of the cycles of a call and of the steps of the clock over at least 500 readings and 20 steps, and the cycles per quantum are estimated so that an outlier has little effect.", "quantifier": "all sequences of readings", "why_tests_cant": "A test sees the readings of one machine; outliers and steps back are rare.", "anchors": ["src/Clock.cpp:estimateTodTfracLatency,initialMeasurements"]}
{"id": "C116", "title": "The clock trusts the cycle counter only if every cpu keeps its frequency", "statement": "The check for frequency scaling answers no exactly if there is a cpu and every cpu has the performance governor or equal minimum and maximum frequency, and with the default setting calibration then and only then goes on; it answers in every case and closes what it opened.", "quantifier": "all directories of cpus, in any order, and all contents of their files", "why_tests_cant": "A test runs on one machine; the files of other kernels, offline cpus and virtual machines differ.", "anchors": ["src/Clock.cpp:readFileLine,doCFPFS,checkForPossibleFrequencyScaling,calibrateClock"]}
{"id": "C117", "title": "Typed access to a ByteBuffer reads and writes exactly the elements", "statement": "After shift() readStartAs<T>() sees the contents as elements of T; writeStartAs<T>(n) and n written elements append them to this buffer and no other; writeStartAs and extendAs refuse a number of elements that does not fit; the pointers are aligned for T.", "quantifier": "all histories of all buffers, element sizes and alignments, and numbers of elements", "why_tests_cant": "It must hold for every position of the data in the storage, every sharing of storage and every size_t.", "anchors": ["include/Lintel/ByteBuffer.hpp:readStartAs,writeStartAs,extendAs"]}
{"id": "C118", "title": "The normal distribution functions are the probabilities they name", "statement": "Up to the error of their constants, unitNormalCDF(x) is the probability that a unit normal variable is below x, lies strictly between 0 and 1, grows strictly and adds up to 1 with its value at -x; probAbsNormal(x) is the probability that the absolute value is above x; unitNormalPDF(x) is the density, the derivative of the former; and inverseUnitNormalCDF undoes unitNormalCDF above 1/2.", "quantifier": "all real x", "why_tests_cant": "The probabilities are integrals over unbounded intervals, for every x; a test compares a few values.", "anchors": ["include/Lintel/MathSpecialFunctions.hpp:unitNormalCDF,probAbsNormal,unitNormalPDF"]}
{"id": "C119", "title": "Host names, error texts and wide strings are those of the system", "statement": "getHostFQDN gives the first canonical name of the host, or its plain name when the resolver has none, and frees what the resolver allocated; stringError gives the text of the library for every error number, up to the size of its buffer, and a fixed text if there is none; string2wstring and wstring2string convert the characters in order, and back to the same string whenever the locale can. None of them reads past its buffer.", "quantifier": "all host names, answers of the resolver, error texts, locales and strings", "why_tests_cant": "A test sees one host, one resolver and one locale.", "anchors": ["src/StringUtil.cpp:getHostFQDN,stringError,string2wstring,wstring2string"]}

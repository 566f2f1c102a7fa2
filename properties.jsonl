{"id": "C01", "title": "Bit-field write then read gives the value back", "statement": "After fillField(i,v,n) (or writeField) on a vector of size s with i+n<=s, peekField(i,n) (or readField) returns v modulo 2^n when n<=64; every element outside [i,i+n) is unchanged and the size does not change; writeField/readField advance the caller's index by exactly n. Reading n>64 bits returns the last 64 of them.", "quantifier": "every vector content (including non-normalised elements left by invert()), every index, length and 64-bit value", "why_tests_cant": "the space of (contents, index, length, 64-bit value) is unbounded; a test shows a few tuples", "anchors": ["BitVector.cpp: BitVector::peekField, readField, fillField, writeField", "BitVector.h: write0, write1"]}
{"id": "C02", "title": "Reversed bit-field access is the mirror image of normal access", "statement": "fillFieldReversed(i,v,n) followed by peekFieldReversed(i,n) returns v mod 2^n (n<=64) and leaves all other positions alone; writing reversed then reading normally returns the n-bit reversal of v, and writing normally then reading reversed likewise.", "quantifier": "every vector, index, length 1..64, value", "why_tests_cant": "all lengths, offsets and values; mixed normal/reversed access is not covered by any finite table", "anchors": ["BitVector.cpp: peekFieldReversed, readFieldReversed, fillFieldReversed, writeFieldReversed"]}
{"id": "C03", "title": "A sequence of writeField calls is decoded by the same sequence of readField calls", "statement": "Starting from any index, writing an arbitrary list of (value,width) fields with writeField / writeFieldReversed and then reading the same list of widths with the matching read calls from the same start returns every value modulo 2^width, ends at the same index (start + sum of widths), and leaves bits outside the written range unchanged.", "quantifier": "every list of fields of any length, any mixture of normal and reversed, any vector large enough", "why_tests_cant": "quantifies over message layouts of any length, needs induction", "anchors": ["BitVector.cpp: writeField, writeFieldReversed, readField, readFieldReversed"]}
{"id": "C04", "title": "Out-of-range field access: writes abort before touching memory, reads are unchecked", "statement": "fillField/fillFieldReversed with an index that does not wrap around the end of memory (C95 has the others) either abort by assertion with the vector unmodified or write only inside the vector; this is decided exactly by index+length<=size (length 0 is always a no-op). peekFieldReversed aborts exactly when index+length>size. peekField has no check: it reads outside the vector exactly when index+length>size (and length>0).", "quantifier": "every vector, index, length, value", "why_tests_cant": "absence of any out-of-bounds write for all inputs cannot be sampled; the unchecked read is undefined behaviour a test may not notice", "anchors": ["BitVector.cpp: fillField, fillFieldReversed, peekField, peekFieldReversed"]}
{"id": "C05", "title": "A codeword built with the parity generator has the expected syndrome", "statement": "For every generator polynomial and parity length n in 1..63 and every data vector, writing the parity word of the data after the data and computing the syndrome of the whole gives 0 when parity is written uninverted, and the constant 2^n-1 when written inverted (the default); parity and syndrome equal the mathematical remainders data(x)*x^n mod g(x) and word(x) mod g(x).", "quantifier": "every polynomial, every length 1..63, every data vector of every size", "why_tests_cant": "all data words of all sizes and all polynomials", "anchors": ["BitVector.h: Generator, Parity", "BitVector.cpp: BitVector::syndrome, BitVector::parity, Parity::writeParityWord, Parity::syndrome"]}
{"id": "C06", "title": "Parity check detects every burst error up to the parity length", "statement": "Syndrome and parity are linear over GF(2) (syndrome of the xor of two equal-length words is the xor of the syndromes). If the polynomial has a non-zero constant term, corrupting a codeword by any non-zero error pattern confined to at most n consecutive positions changes the syndrome, so the corruption is detected wherever it lies.", "quantifier": "every polynomial with constant term, every codeword, every burst position and pattern", "why_tests_cant": "the number of (codeword, error) pairs is exponential", "anchors": ["BitVector.cpp: BitVector::syndrome", "BitVector.h: Generator::syndromeShift, encoderShift"]}
{"id": "C07", "title": "pack and unpack are inverse and MSB-first", "statement": "unpack(pack(v)) restores every bit of v for every size; pack(unpack(b)) restores every byte b, with the unused low bits of a partial last byte zero; packToString produces the same bytes as pack, exactly ceil(size/8) of them; byte k is the big-endian value of bits 8k..8k+7 padded with zero bits.", "quantifier": "every vector of every size, every byte array", "why_tests_cant": "all sizes including those that are not multiples of eight", "anchors": ["BitVector.cpp: pack, packToString, unpack"]}
{"id": "C08", "title": "Hex dump and hex parse of bit vectors", "statement": "hexstr() prints exactly floor(size/4) lower-case digits. For sizes divisible by four, unhex(hexstr()) succeeds and restores every bit. unhex never reads past the terminating NUL of its argument and returns false exactly when a required digit position has no hex digit (after white space skipping). For sizes not divisible by four, unhex(hexstr()) always fails: the tail bits are not printed (defect).", "quantifier": "every vector size and content, every C string", "why_tests_cant": "all strings and sizes; reading past the terminator is invisible to tests", "anchors": ["BitVector.cpp: hex, hexstr, unhex"]}
{"id": "C09", "title": "Puncturing removes exactly the indexed elements and un-puncturing puts erasures back", "statement": "copyPunctured with a strictly increasing in-range index list and a destination of size-plth completes and dst is the source without exactly those positions, in order; for any other index list or destination size it aborts by assertion, never reading or writing outside the vectors and never looping forever. copyUnPunctured likewise inserts 0.5 at exactly the listed positions. Un-puncturing a punctured vector restores every surviving position and 0.5 elsewhere.", "quantifier": "every vector, every puncture list (sorted or not, in range or not), every destination size", "why_tests_cant": "pointer-walking loop over unbounded inputs; safety for malformed lists is a for-all claim", "anchors": ["BitVector.cpp: BitVector::copyPunctured, SoftVector::copyUnPunctured"]}
{"id": "C10", "title": "map and unmap implement the documented permutations", "statement": "map gives dest[i]=this[map[i]] for i<mapSize and leaves the rest of dest unchanged; unmap gives dest[map[i]]=this[i] (the last i wins for repeated targets) and leaves other positions unchanged; for an injective map unmap(map(v)) and map(unmap(v)) restore the mapped elements; the access is in bounds exactly when all indices are in range.", "quantifier": "every map array, every vector", "why_tests_cant": "all permutations of all sizes", "anchors": ["BitVector.cpp: map, unmap"]}
{"id": "C11", "title": "Bitwise and bytewise in-place operations", "statement": "invert flips every bit() and applying it twice restores the original bytes; LSB8MSB reverses every complete group of eight, leaves the tail of size mod 8 elements alone, never fails, and is its own inverse; reverse8 aborts exactly below 8 elements; sum is the number of set bits; printing and re-parsing the 0/1 string gives the same bits, and any text parses to a 1 exactly at its 1 characters. Defect: operator== compares raw bytes, so an inverted vector never equals a freshly built vector with the same bits.", "quantifier": "every vector", "why_tests_cant": "all sizes and contents", "anchors": ["BitVector.cpp: invert, reverse8, LSB8MSB, sum, operator<<, operator==, BitVector(const char*)"]}
{"id": "C12", "title": "Vector storage: each allocated block has exactly one owner; no double free, no leak", "statement": "In any history of construction, resize, clear, clone, concatenation, segment/alias, ownership shift, assignment and destruction of vectors, in which no dangling alias is read, every live heap block is owned by exactly one live vector, no block is freed twice, and after all vectors are destroyed no block is left allocated.", "quantifier": "every sequence of operations over any number of vectors", "why_tests_cant": "holds over all histories; double frees and leaks depend on operation order", "anchors": ["Vector.h: VectorBase::vInit, shiftMem, makeAlias, resize, clear, clone, vConcat, operator=, ~VectorBase; Vector copy constructors and assignment", "BitVector.h: BitVector copy constructor, segment, cloneSegment, dup"]}
{"id": "C13", "title": "Aliases share storage, clones do not", "statement": "After taking a segment, a write through the segment at position k is seen by the parent at start+k and the reverse; after clone/cloneSegment/copy of an owning vector, later writes to either side are never seen by the other; copying an alias yields another alias of the same storage.", "quantifier": "every state, every segment bounds, every later sequence of element writes", "why_tests_cant": "non-interference must hold for all later writes", "anchors": ["Vector.h: clone, makeAlias, operator=, segment", "BitVector.h: segment, alias, head, tail, cloneSegment"]}
{"id": "C14", "title": "Assigning a vector to itself or to part of itself", "statement": "A user expects v=v to keep the contents. Defects established on the model: self-assignment of an owning BitVector leaves uninitialised contents; assigning a vector from a segment of itself leaves it pointing to freed memory; Vector self-shift empties it. Assignment between distinct, non-overlapping vectors always yields the source contents.", "quantifier": "every vector state", "why_tests_cant": "depends on memory reuse; a test may pass by luck on freed memory", "anchors": ["Vector.h: VectorBase::operator=, clone, makeAlias, shiftMem"]}
{"id": "C15", "title": "Hard decision of a soft vector", "statement": "Converting a bit vector to a soft vector and slicing it gives back the same bits; sliced() yields 1 exactly for values strictly greater than one half, so 0.5 erasures become 0; the size is preserved. Printed, an entry is 0 below a quarter, 1 above three quarters and - otherwise. bit() is the entry of sliced(), softbit() the value itself, settfb() changes just that entry, and outside the vector the three abort; after unknown() every entry is one half.", "quantifier": "every bit vector and every vector of IEEE single values, NaN and infinities included", "why_tests_cant": "all values and sizes", "anchors": ["BitVector.cpp: SoftVector::SoftVector(const BitVector&), sliced"]}
{"id": "C16", "title": "F16 fixed-point arithmetic error bounds", "statement": "Sums and differences that fit in the 16.16 range are exact; a product that fits is the exact product rounded toward minus infinity with error below 2^-16; a quotient that fits is the exact quotient truncated toward zero with error below 2^-16; comparisons are exactly those of the represented rationals; integers in range convert exactly.", "quantifier": "all pairs of 32-bit raw values", "why_tests_cant": "2^64 operand pairs", "anchors": ["F16.h: F16 constructors, operator+,-,*,/ and comparisons"]}
{"id": "C17", "title": "F16 has no saturation and chained assignment is wrong", "statement": "The class documents saturating arithmetic, but addition of two values whose sum leaves the range is signed overflow (undefined behaviour), a product out of range wraps modulo 2^32, and division by zero is undefined. The value returned by copy assignment is the raw word shifted left 16, so a=b=c stores c only in b, and a gets c only for c=0 (defect).", "quantifier": "all operand values", "why_tests_cant": "needs the exact set of failing operands", "anchors": ["F16.h: operator=, operator+, operator*, operator/"]}
{"id": "C18", "title": "PointerFIFO behaves as an unbounded double-ended queue", "statement": "For every history of put, push_front and get on an initially empty queue, get returns the elements in the order of an ideal deque, get on empty returns NULL, size() is the number of elements held, and internal cell recycling never loses, duplicates or cross-links cells. A stored NULL is returned as NULL and is indistinguishable from empty.", "quantifier": "every finite history of operations", "why_tests_cant": "node recycling bugs show only in particular long histories", "anchors": ["LinkedLists.cpp: PointerFIFO::push_front, put, get, allocate, release", "LinkedLists.h: ListNode, PointerFIFO"]}
{"id": "C19", "title": "SingleLinkList keeps order, count and total size", "statement": "For every history of push_back, push_front, pop_front on nodes not already in the list, the list is an ideal deque, size() is the element count, totalSize() is the sum of node sizes as recorded at push time when sizes do not change while queued, and operator behaviour on empty lists is as documented; pushing a node already in the list breaks the structure.", "quantifier": "every history with distinct nodes", "why_tests_cant": "intrusive links: history dependent", "anchors": ["LinkedLists.h: SingleLinkList, SingleLinkListNode"]}
{"id": "C20", "title": "InterthreadQueue delivers every written item exactly once in FIFO order", "statement": "For any number of writer and reader threads and any interleaving, the sequence of items taken equals a prefix of the sequence of items put in lock order (write at the back, write_front at the front); nothing is lost, duplicated or invented; a blocking read never returns NULL; NULL writes are consumed silently.", "quantifier": "every number of threads, every program of operations, every schedule, spurious wake-ups and timeouts included", "why_tests_cant": "schedules cannot be enumerated by tests", "anchors": ["Interthread.h: InterthreadQueue::write, write_front, read, readNoBlock, clear", "Threads.h: Signal, ScopedLock"]}
{"id": "C21", "title": "No lost wake-up on an unconnected InterthreadQueue", "statement": "In every reachable state, if an item is queued and some reader is asleep, then a wake-up is already on its way (a writer about to signal, or an awakened reader that has not yet run) for each queued item, so the system can never come to rest with an item queued and a reader asleep, provided NULL is never written. Defect: after a NULL write, read() consumes the NULL and goes to sleep although an item is queued behind it and its signal is spent.", "quantifier": "every number of readers and writers, every schedule", "why_tests_cant": "a lost wake-up is a rare race", "anchors": ["Interthread.h: InterthreadQueue::read, write", "Threads.h: Signal::wait, signal"]}
{"id": "C22", "title": "Connected queues and iqWaitForEither", "statement": "Waiting on either of two connected queues with a timeout should return when the timeout expires. Defects: after expiry with both queues empty the call spins forever while holding the shared mutex, so no writer can ever get in; and with two blocked readers on two connected queues a single signal can wake the wrong one and leave an item queued with its reader asleep for ever. With one waiting thread (and no NULL writes) no wake-up is lost.", "quantifier": "every schedule", "why_tests_cant": "needs a specific expiry and schedule; non-termination cannot be observed by a test", "anchors": ["Interthread.h: iqConnect, iqWaitForEither", "Threads.cpp: Signal::wait(Mutex&,unsigned)"]}
{"id": "C23", "title": "InterthreadQueueWithWait wait-for-drain", "statement": "If NULL is never written, a single thread blocked in wait(n) is always woken once the queue has drained to n or fewer, sleeping readers are woken, and the queue part keeps the exactly-once FIFO guarantee. Defect: with two waiters, one clear() (or reads) can leave one of them asleep for ever although the queue is empty; removing a NULL item does not wake the waiter.", "quantifier": "every schedule", "why_tests_cant": "rare race", "anchors": ["Interthread.h: InterthreadQueueWithWait"]}
{"id": "C24", "title": "InterthreadMap is a linearizable map with blocking get", "statement": "Under any interleaving every completed get(key) returns a value that was the most recent write for that key at its linearization point; read/getNoBlock with remove take each written value at most once; a blocked getter of a key is never left asleep while the key is present; writing and removing do not disturb other keys.", "quantifier": "every number of threads, keys, schedule", "why_tests_cant": "schedules and histories are unbounded", "anchors": ["Interthread.h: InterthreadMap1, InterthreadMap"]}
{"id": "C25", "title": "InterthreadMap ownership of stored pointers", "statement": "Every pointer displaced by write or removed by remove is deleted exactly once (if no pointer is written twice), and a pointer returned by a removing get is not deleted by the map. Defects: writing the pointer already stored deletes it and keeps it (dangling); destruction of the map deletes nothing because the overriding deleter is no longer active in the base destructor (leak).", "quantifier": "every history", "why_tests_cant": "use-after-free and leaks are silent in tests", "anchors": ["Interthread.h: InterthreadMap1::write, remove, ~InterthreadMap1; InterthreadMap::vdelete"]}
{"id": "C26", "title": "InterthreadPriorityQueue returns the smallest element and conserves the contents", "statement": "Every read returns an element that is minimal among those then queued, the multiset of contents changes by exactly that element, no element is lost or duplicated over any history and schedule, and no reader is left asleep while something is queued.", "quantifier": "every history, every strict order of priorities (ties broken in any way), every schedule", "why_tests_cant": "all orders of insertion", "anchors": ["Interthread.h: PointerCompare, InterthreadPriorityQueue"]}
{"id": "C27", "title": "Binary semaphore has no lost wake-up and coalesces posts", "statement": "In every reachable state, if the flag is set and a thread is asleep in get() then an awakened thread is on its way; each successful get/semtry consumes exactly one flag set; the number of successful gets never exceeds the number of posts; posts with the flag already set coalesce.", "quantifier": "every number of threads and schedule", "why_tests_cant": "rare race", "anchors": ["Interthread.h: Semaphore"]}
{"id": "C28", "title": "Mutex mutual exclusion and lock counting", "statement": "Under any interleaving of recursive lock/unlock/trylock by any threads, at most one thread holds the mutex, lockcnt() equals the recursion depth of the holder plus one for each thread asleep in a condition wait on it, and the recorded lock sites stay in bounds; a thread that unlocks as often as it locked releases the mutex; while no condition waits are used mutext() names the sites where the holder locked it. Defects: waiting on a condition with the mutex locked twice keeps it locked, and the count of a sleeping thread makes ScopedLockMultiple's assertion lockcnt()==1 fail for a rightful owner.", "quantifier": "every number of threads, every schedule, every recursion depth", "why_tests_cant": "schedules cannot be enumerated", "anchors": ["Threads.cpp: Mutex::lock, unlock, trylock, mutext", "Threads.h: Mutex, ScopedLock"]}
{"id": "C29", "title": "timedlock reports success only when the lock was obtained", "statement": "timedlock returns true only if the caller now holds the mutex, for every deadline Timeval::future normalises, and returns false only if not. Defect: when the microseconds of the clock plus the sub-second part of the timeout are exactly one second the deadline is invalid, the system call fails with EINVAL and timedlock returns true at once without the lock; every timeout that is not a whole number of seconds is affected once a second. lock(file,line), whose timeout is a whole second, always goes on with the mutex held.", "quantifier": "every clock value, every timeout, every schedule", "why_tests_cant": "one microsecond value in a million", "anchors": ["Threads.cpp: Mutex::timedlock, Mutex::lock(const char*,unsigned)", "Timeval.cpp: Timeval::future, timespec"]}
{"id": "C30", "title": "ScopedLockMultiple acquires all locks without deadlock and restores ownership", "statement": "When the constructor returns, the thread holds all two or three mutexes; when destroyed, exactly the mutexes owned on entry are held again. If none is owned on entry the constructor never blocks while holding any of them, so any number of threads using it on any mutexes in any order cannot deadlock. Defect: with mutexes owned on entry it may block while holding one, and two such threads can deadlock although the documentation promises otherwise.", "quantifier": "every number of threads, every assignment of mutexes, every schedule", "why_tests_cant": "deadlock needs a specific schedule", "anchors": ["Threads.h: ScopedLockMultiple", "Threads.cpp: ScopedLockMultiple::_lockAll, _saveState, _restoreState, _lock, _trylock, _unlock"]}
{"id": "C31", "title": "Timeval::future adds the offset exactly and normalises", "statement": "future(ms) denotes exactly now + ms; for every clock value with microseconds below one million the resulting microsecond field is below one million except in exactly one case: when the sum is exactly 1000000, where it stays 1000000 and timespec() yields an invalid nanosecond field (defect).", "quantifier": "every clock value and every unsigned offset", "why_tests_cant": "2^32 offsets times 10^6 microsecond values", "anchors": ["Timeval.cpp: Timeval::future, Timeval::timespec"]}
{"id": "C32", "title": "Timeval differences and passed()", "statement": "delta is the millisecond difference truncated as documented: within one millisecond of the exact difference, antisymmetric, and additive up to 1 ms; remaining() is positive, zero or negative consistently with the clock; passed() is true exactly when the clock is strictly later; a deadline made by future(ms) has exactly ms remaining at the same clock reading. All hold when the two times differ by less than 2147483 seconds; beyond that the 32-bit computation overflows (defect against the documented four years).", "quantifier": "all pairs of times", "why_tests_cant": "all pairs", "anchors": ["Timeval.cpp: Timeval::passed, delta", "Timeval.h: elapsed, remaining, addMinutes"]}
{"id": "C33", "title": "Base64 encode/decode round trip", "statement": "For every byte string, decoding the encoding returns the original with no error, the encoding uses only the standard alphabet and padding, has length 4*ceil(n/3), agrees with RFC 4648, and decoding is unaffected by white space inserted anywhere. Decoding reports an error exactly when a character outside the alphabet comes before the first = or something other than = after it. Defect: a single left-over character (a truncated text) is accepted silently.", "quantifier": "every byte string, every insertion of white space", "why_tests_cant": "all strings", "anchors": ["Utils.cpp: base64EncodeToString, base64DecodeToString"]}
{"id": "C34", "title": "Hex encode/decode round trip and rejection", "statement": "For every byte string hex decoding of the hex encoding returns it with no error; upper and lower case digits are accepted; decoding reports an error exactly when some non-space character is not a hex digit or the number of non-space characters is odd.", "quantifier": "every byte string and every input text", "why_tests_cant": "all strings", "anchors": ["Utils.cpp: hex encoder/decoder, tables, decodeToString, encodeToString"]}
{"id": "C35", "title": "Encoding dispatch is total and case-sensitive", "statement": "decodeToString/encodeToString never crash, return the identity for the binary encoding, agree with the codecs of C33 and C34 for base64 and hex, and set an error for any other name, the empty one included. Defects: names are compared case-sensitively although the type used is documented as case-insensitive; an error left over from an earlier call is never cleared.", "quantifier": "every input and encoding name", "why_tests_cant": "all names", "anchors": ["Utils.cpp: decodeToString, encodeToString", "Utils.h: stringCaseInsensitive"]}
{"id": "C36", "title": "URL encoding", "statement": "The output contains only unreserved characters and %-triplets, every unreserved character is kept, and a standard URL decoder recovers every byte whose two hex digits are both 0..9. Defect: the digit table has an extra 0, so digits A..F are printed wrongly, different inputs get equal encodings and decoding does not return the input; NUL is not escaped.", "quantifier": "every byte string", "why_tests_cant": "all strings", "anchors": ["URLEncode.cpp: URLEncode"]}
{"id": "C37", "title": "gcd", "statement": "For every pair of positive ints gcd returns the greatest common divisor within 2*log2(min)+3 calls. Defects: 0 together with a non-negative number divides by zero (undefined); a negative number and a positive one it does not divide, and two different negative numbers, recurse for ever.", "quantifier": "all pairs of ints", "why_tests_cant": "2^64 pairs", "anchors": ["Utils.cpp: gcd"]}
{"id": "C38", "title": "replaceAll", "statement": "For a non-empty search string the result is the input with every leftmost non-overlapping occurrence replaced, text inserted by a replacement is never searched again, and the call terminates. Defect: an empty search string never terminates.", "quantifier": "every input, search and replacement string", "why_tests_cant": "all strings; non-termination is unobservable", "anchors": ["Utils.cpp: replaceAll"]}
{"id": "C39", "title": "String splitting", "statement": "cstrSplit/stringSplit return exactly the first maxargc maximal runs of non-separator characters in order, never write outside the buffer and return their count. Defect: contrary to its comment, the last slot does not receive the rest of the line. cstrGetArg(n) returns the n-th run with exact start and length or NULL.", "quantifier": "every string, every separator set, every limit", "why_tests_cant": "all strings", "anchors": ["Utils.cpp: cstrSplit, stringSplit, cstrGetArg"]}
{"id": "C40", "title": "Reference-counted pointers delete exactly once, at the last release", "statement": "For any history of creating, copying, assigning (including self-assignment and raw-pointer assignment), freeing and destroying RefCntPointers, also as members of counted objects, an object's count equals the number of pointers referring to it, it is alive while any pointer refers to it, and it is deleted exactly once, by the operation that releases the last pointer; no operation touches a dead object. Duties of the caller: raw pointers are alive, a member pointer is assigned or freed only while a variable keeps its owner alive, a count stays below 32768. Defects: the 32768th pointer makes the count negative and every later copy or release aborts; freeing a member that alone keeps its owner alive writes to freed memory; cycles are never deleted.", "quantifier": "every history over any number of objects and pointers", "why_tests_cant": "history-dependent", "anchors": ["Utils.h: RefCntPointer", "Utils.cpp: RefCntBase::decRefCnt, incRefCnt"]}
{"id": "C41", "title": "128-bit random/key hex conversion round trip", "statement": "stringToUint(uintToString(h,l)) returns (h,l) for all 64-bit h and l and the text is exactly 32 lower-case hex digits, most significant first; the 32-bit version gives 8 digits; a text of another length aborts.", "quantifier": "all 2^128 pairs", "why_tests_cant": "2^128 pairs", "anchors": ["Utils.cpp: stringToUint, uintToString"]}
{"id": "C42", "title": "Formatted strings are truncated only where documented", "statement": "format() returns the whole formatted text for lengths up to 5000 and the first 5000 characters beyond. Defect: for a text of exactly 199 characters the last one is lost. The stream variant returns the whole text below 296 characters and otherwise the first 296 followed by three dots.", "quantifier": "every formatted text", "why_tests_cant": "all lengths; the defect is at one length", "anchors": ["Utils.cpp: format, osprintf"]}
{"id": "C43", "title": "Statistic accumulates count, min, max, sum of the samples", "statement": "For every non-empty sequence of fewer than 2^32 integer samples the recorded minimum and maximum are the true ones, count is the number of samples, the current value is the last one (before the first sample all of these are 0), and while the partial sums stay within 2^53 the average is the exact sum over the count. Defects: after 2^32 samples the minimum and maximum are forgotten; beyond 2^53 each sum is rounded to the nearest double, so samples are lost from it.", "quantifier": "every sequence of samples", "why_tests_cant": "all sequences", "anchors": ["Utils.h: Statistic"]}
{"id": "C44", "title": "Configuration values: read your writes", "statement": "For keys and values free of double quotes and NULs (and free of apostrophes where an apostrophe delimits), any number of tables behave like maps from key to value: after a successful set(key,value) every get of that key in that table returns the value until the next set or remove of it, whatever other keys, purges and clock changes come between; after remove a schema key returns its default and another key is reported missing; a failed set or remove changes nothing; getAllPairs lists the stored rows. Defect: remove returns true also when there was nothing to remove.", "quantifier": "every history of set/remove/get on any keys", "why_tests_cant": "histories are unbounded", "anchors": ["Configuration.cpp: ConfigurationTable::lookup, set, remove, getStr, defines"]}
{"id": "C45", "title": "Configuration cache staleness is bounded by three seconds", "statement": "With one table and a clock that is never set back, every value returned by a get was the value prescribed by the database (stored value, else schema default) at some moment less than three seconds before. Defects: the purge time is shared by all tables, so with a second table in use a table stays stale for any length of time; after the clock is set back by n seconds values stay stale until it has caught up; a failed read is cached as the default value or as missing.", "quantifier": "every history of external changes, lookups and clock advances", "why_tests_cant": "time and histories", "anchors": ["Configuration.cpp: ConfigurationTable::checkCacheAge, lookup, purge"]}
{"id": "C46", "title": "Numeric configuration round trip", "statement": "set(key,long) followed by getNum returns the number for every long; getNum reads white space, a sign and decimal, octal (leading 0) or hexadecimal (0x) digits, ignores what follows, limits the value to long, and gives 0 if there are no digits; getBool is true exactly for numbers other than 0 (so for the word 'true' it is false).", "quantifier": "all longs and all value strings", "why_tests_cant": "2^64 values", "anchors": ["Configuration.cpp: ConfigurationTable::set(long), getNum, getBool, ConfigurationRecord::number"]}
{"id": "C47", "title": "Configuration SQL statements carry keys and values verbatim", "statement": "For every key and value free of double quotes and NUL the statement built by set replaces exactly the row of that key by exactly that value; for keys free of apostrophes and NUL remove deletes exactly the rows of that key; lookup finds exactly the row of a key that is not a column name; a NUL makes set fail without effect. Defects: a value with double quotes can write other keys or be stored differently from what the cache shows; a key with an apostrophe can be set but not removed; one key removes every row; a key that is a column name finds any row; a schema description with an apostrophe makes its key impossible to set.", "quantifier": "every key and value string", "why_tests_cant": "all strings", "anchors": ["Configuration.cpp: ConfigurationTable::set, remove", "sqlite3util.cpp: condition, sqlite3_command"]}
{"id": "C48", "title": "Validation of configuration values", "statement": "For values without NUL shorter than 2^31, isValidValue accepts exactly: for booleans, 0 and 1; for choices with descriptions, the alternatives; for addresses, four decimal numbers up to 255 without leading zeros joined by dots; for address/prefix, host:port and address:port, a valid first part, the delimiter, and a rest that starts with a number in range; for address lists without ports, lists of addresses; for ports, text that starts with a number in 1..65535; for file paths, non-empty text of letters, digits, slash, underscore, dot and hyphen; for integer ranges min:max with optional stepping, non-empty text of digits and hyphens that starts with a number in the range; for regular expressions, what the regular expression library compiles; for strings, what the expression of the schema matches. Optional types accept the empty text too. Defects: where the delimiter is missing, the whole value is taken as both parts, so a bare address can pass as address/prefix or address:port and a bare number as host:port; text behind numbers is ignored; choices without descriptions accept only tails of the list; ports in address lists are looked up at the first colon of the whole list; only the first of several ranges counts; a range that ends at the largest int has no upper bound; a blank port and an unknown key read uninitialised memory.", "quantifier": "every schema entry, every value of the stated length, every behaviour of the regular expression library and of the float ranges", "why_tests_cant": "all strings of unbounded length for twelve grammars; the defects need values nobody thinks of testing", "anchors": ["Configuration.cpp: ConfigurationTable::isValidValue, getMinMaxStepping, isInValRange, isValidIP"]}
{"id": "C49", "title": "Vector-valued configuration entries", "statement": "getVectorOfStrings returns exactly the maximal runs of non-space characters in order, so words joined by spaces come back; getVector returns each run as strtol reads it, modulo 2^32, so unsigned numbers joined by spaces come back. Defect: a lone tab makes getVector return the next number twice.", "quantifier": "every value string, every list of numbers", "why_tests_cant": "all strings", "anchors": ["Configuration.cpp: getVectorOfStrings, getVector"]}
{"id": "C50", "title": "SimpleKeyValue parsing", "statement": "addItems splits the text at spaces and each item at its first '=': the last item key=value decides what get returns, keys not mentioned keep their value, items without '=' are ignored; getNum reads the decimal number and clears the flag exactly for absent keys. Defects: getNum never sets the flag to true; every addItems call leaks its copy of the text, and one more copy for each item without '='; a key containing '=' can never be found.", "quantifier": "every item string and key", "why_tests_cant": "all strings", "anchors": ["Configuration.cpp: SimpleKeyValue::addItem, addItems, get, getNum"]}
{"id": "C51", "title": "HashString hash quality", "statement": "Strings that differ in one character have different hashes; ASCII strings of up to nine characters never collide; operator< is a strict order that agrees with operator==. Defects: alphanumeric strings of ten characters can collide, as can strings of two bytes with bytes above 127, and operator== then calls different strings equal; operator> is the same as operator<.", "quantifier": "all strings", "why_tests_cant": "2^64 range", "anchors": ["Configuration.cpp: HashString::computeHash", "Configuration.h: HashString"]}
{"id": "C52", "title": "Per-file log level caching is fresh within 1000 calls", "statement": "A file is logged at the level of Log.Level.<file> if that is set and not empty, else of Log.Level; the known level names are thirteen; an unknown name stands for the default of the schema and is replaced by it in the configuration, which queries leave alone otherwise. In one thread each answer is the level prescribed at that query or at one of the 1000 before it for a file with the same hash - for names of up to nine ASCII characters, for the same file. With several threads an answer is one some earlier configuration prescribed. Defects: longer names can share a hash and so a level; a thread held up between look-up and insertion brings back a level of any age.", "quantifier": "every history of queries and configuration changes, every interleaving of threads", "why_tests_cant": "histories and schedules", "anchors": ["Logger.cpp: gGetLoggingLevel, getLoggingLevel, lookupLevel2, levelStringToInt"]}
{"id": "C53", "title": "Alarm list keeps the most recent alarms", "statement": "After any sequence of alarms the list holds exactly the last Log.Alarms.Max of them, in order; if the limit changes it holds the most recent ones, never more than the limit at the last alarm, and all of the last n if the limits allowed for n since. Defect: a negative limit counts as about four thousand million.", "quantifier": "every sequence of alarms and limits", "why_tests_cant": "histories", "anchors": ["Logger.cpp: addAlarm, gGetLoggerAlarms"]}
{"id": "C54", "title": "Reporting counters are conserved", "statement": "Under any interleaving of create, incr, clear, max and commits of several threads with any failures, the stored value of a counter plus what is pending for it equals the increments minus what was cleared, what a failed update had taken and what was committed before creation; so no increment counts twice, and none of a created counter is lost while updates succeed and it is not cleared. A commit stores all that is pending; max stores the larger value. (Fewer than 2^32 increments pending at once, names other than NAME.) Defects: a failed update loses increments; so does a commit before creation; clear spares pending increments; a counter called NAME increments all counters.", "quantifier": "every interleaving, every history, every commit point", "why_tests_cant": "schedules and crash points", "anchors": ["Reporting.cpp: ReportingTable::incr, commit, create, clear, max"]}
{"id": "C55", "title": "Reporting names fit their buffers", "statement": "The buffer of an indexed name is large enough exactly for indices below 10^8; different bases or indices give different names; a range of indices below 10^8 is created completely, each counter once, and a name the database refuses ends the range and is reported. The command buffers are large enough exactly if name, value and time together have at most 136 (create), 134 (max), 129 (clear) and 139 (commit) characters. Defects: beyond these limits the stack is overwritten; creating a range up to UINT_MAX never ends.", "quantifier": "every base name and index", "why_tests_cant": "all 2^32 indices", "anchors": ["Reporting.cpp: create, incr, max, clear, commit and their indexed variants"]}
{"id": "C56", "title": "Database retry loops are bounded and faithful", "statement": "Prepare and run try at most the given number of times, retry only on BUSY and LOCKED and return the last code; sqlite_command is true exactly if the statement was prepared and ended in OK, ROW or DONE; a query is never stepped again after anything but ROW. Defect: with zero tries an uninitialised statement is finalised.", "quantifier": "every sequence of database results and every retry count", "why_tests_cant": "all outcome sequences", "anchors": ["sqlite3util.cpp: sqlite3_prepare_statement, sqlite3_run_query, sqlite_command"]}
{"id": "C57", "title": "Single-instance registration", "statement": "If starts do not overlap in time and no process does anything after its Exit, at most one instance per pid file runs at any time and the file names it; a second start is refused and leaves all files alone; Exit of a registered instance removes its pid file and its registered files and nothing else, and the program can start again; every signal that can be caught, except CHLD and CONT, leads to Exit. For base names of up to 84 characters the pid file is /var/run/NAME.pid, so programs share one exactly if their base names agree. Defects: overlapping starts both succeed; Exit runs again (atexit) and removes the file of a successor; a crash, or a signal before registration is complete, leaves a file that blocks every later start; longer names are cut, so different programs exclude each other.", "quantifier": "every interleaving of processes, crashes included", "why_tests_cant": "race between processes", "anchors": ["SelfDetect.cpp: SelfDetect::RegisterProgram, RegisterFile, Exit"]}
{"id": "C58", "title": "Signal handlers run in registration order, once each", "statement": "On delivery of a signal from 1 to 63 exactly the handlers registered for it run, once per registration, in order; handlers registered meanwhile run too; a core file is asked for exactly for the signals whose default action is a core; then the signal gets its default action and is raised again. Exactly the registered signals are caught, other than KILL and STOP; registrations out of range change nothing. Defect: a handler that registers itself for its own signal is called forever.", "quantifier": "every registration history, signal number and behaviour of handlers", "why_tests_cant": "histories", "anchors": ["UnixSignal.cpp: UnixSignal::Register, Handler, _sigHandler"]}
{"id": "C60", "title": "First lines of a text and concatenation", "statement": "firstlines(s,n) returns exactly the first n lines of s with their newlines (the whole text if there are fewer; one line if n is below 1); stringcat returns the concatenation of its arguments.", "quantifier": "every text and every n", "why_tests_cant": "all strings", "anchors": ["Utils.cpp: firstlines, stringcat"]}
{"id": "C61", "title": "Pretty tables are aligned", "statement": "printPrettyTable prints every row of at most 30 cells of at most 100 characters so that column k starts at the same position in every row, one space behind the widest cell of the column before; a cell _ is printed empty; with tabs the cells are joined by tabs; the table ends with an empty line. Defects: columns from the 31st on are dropped; a cell of 249 characters or more is cut and runs into the next one.", "quantifier": "every table", "why_tests_cant": "all tables", "anchors": ["Utils.cpp: printPrettyTable"]}
{"id": "C62", "title": "BitSet", "statement": "For bit numbers below 32 setBit and clearBit change exactly that bit, isSet and getBit read it. Defect: larger bit numbers are not checked (undefined shift).", "quantifier": "every set and bit number", "why_tests_cant": "all values", "anchors": ["Utils.h: BitSet"]}
{"id": "C63", "title": "Database attributes", "statement": "For names and values free of apostrophes and NULs sqlite_set_attr either stores the value verbatim, so that sqlite_get_attr returns it and other attributes stay, or - exactly when name and value together exceed 39 characters - returns false and changes nothing; missing attributes read as the empty string. Defects: a stored attribute with a name of more than 78 characters cannot be found; a value with apostrophes can write other attributes.", "quantifier": "every name, value and database", "why_tests_cant": "all strings", "anchors": ["sqlite3util.cpp: sqlite_set_attr, sqlite_get_attr, condition_c, sqlite_single_lookup_string"]}
{"id": "C64", "title": "Log records and groups", "statement": "A finished record goes to syslog once; to stderr and, once logging is initialised, to the alarms exactly for the levels EMERG, ALERT and CRIT; to the console and the log file, if enabled, as one text with a newline added unless it ends in one (texts without NUL). With no log group configured, group logging decides as the file's level does, and always passes EMERG; group names are found whatever their case; an unknown name gives the number of groups, which the level functions refuse by assertion. Defect: configuring the level of any group reads freed memory.", "quantifier": "every text, level and configuration", "why_tests_cant": "all texts and configurations", "anchors": ["Logger.cpp: Log::~Log, LogGroup::setAll, isLogLevel, groupNameToIndex"]}
{"id": "C65", "title": "Contents after concatenating, filling and copying vectors", "statement": "Concatenation gives a new vector with storage of its own that holds the elements of both. fill, fill of a range, copyToSegment and segmentCopyTo put exactly the given elements at the given places, change nothing else - other vectors see a change exactly where they share the storage - and abort exactly when the range does not fit. Defect: copying between overlapping ranges, as in shifting a vector within itself, is undefined.", "quantifier": "every reachable state, all vectors and ranges", "why_tests_cant": "aliases between any number of vectors", "anchors": ["Vector.h: vConcat, fill, copyToSegment, copyTo, segmentCopyTo"]}
{"id": "C66", "title": "Bounds checks of vectors", "statement": "As long as addresses do not wrap, element access, segment, head, tail and fill succeed exactly when the elements exist, at the right addresses; a vector without storage accepts no index. Defects: the index -1 is accepted by every vector; a tail that begins behind the end is accepted and gives a vector whose size() aborts; a segment of negative length is accepted.", "quantifier": "every vector, element size, index and range, 64-bit pointers", "why_tests_cant": "all 2^64 indices", "anchors": ["Vector.h: operator[], segment, head, tail, fill, size", "BitVector.h: segment, head, tail, bit, settfb, operator[]"]}
{"id": "C67", "title": "UDP datagrams", "statement": "write sends exactly the given bytes to the destination set last (names that do not resolve leave it unchanged) and returns their number, or returns -1 and sends nothing if no destination was set, the network refuses or the packet exceeds 65507 bytes; writeBack does the same towards the sender of the last packet read. write and writeBack of a text send it with its NUL. read stores the first 1500 bytes of the packet, nothing else, and returns their number; it returns -1 exactly if nothing arrived in time and throws exactly on an error. The time limit is passed on exactly. Defects: writeBack before the first packet uses uninitialised memory; texts of more than 1499 characters arrive without their NUL.", "quantifier": "every history of calls, host resolver, packet and network behaviour", "why_tests_cant": "all histories and packets; needs a network", "anchors": ["Sockets.cpp: DatagramSocket::write, writeBack, read, UDPSocket::destination"]}
{"id": "C68", "title": "Host names and ports", "statement": "resolveAddress of a host and a port stores family, port in network order and the resolved address and returns true, or leaves the address alone and returns false when the name does not resolve to an IPv4 address. In the text form the host is what stands before the first colon and the port the number behind it, so host:port written in decimal leads to that host and port. Defects: a text without colon leaks memory; a port that is no number counts as 0, larger numbers are taken modulo 65536.", "quantifier": "every text, host resolver and port", "why_tests_cant": "all strings; needs a name server", "anchors": ["Sockets.cpp: resolveAddress"]}
{"id": "C69", "title": "Unix datagram sockets", "statement": "open binds exactly the path given if it has 1 to 107 characters; writeBack sends to the path of the last sender that had one. Defects: longer paths overrun the stack in open, and paths of more than 253 characters the object in destination; destination never sets the address family, so write always fails and sends nothing, whatever was called before; a packet from a socket without a name leaves the previous sender in place, so the answer goes to the wrong socket; writeBack before the first named packet uses uninitialised memory.", "quantifier": "every path and every history of calls", "why_tests_cant": "all histories and paths", "anchors": ["Sockets.cpp: UDDSocket::open, destination, DatagramSocket::write, writeBack"]}
{"id": "C70", "title": "Socket descriptors", "statement": "In a process where socket objects are only constructed with a port or path and destroyed, in any order and mixed with other code opening and closing files, every destructor closes the descriptor of its own object and nothing else, each object alive has exactly one open descriptor, and none are left over. Defects: after close() the destructor closes the descriptor again, which by then may be another's file; a second open() leaks the first descriptor; destroying a Unix socket that was never opened closes an arbitrary descriptor.", "quantifier": "every history of constructions, destructions and foreign opens and closes", "why_tests_cant": "all histories", "anchors": ["Sockets.cpp: DatagramSocket::close, ~DatagramSocket, UDPSocket::open, UDDSocket::UDDSocket"]}
{"id": "C71", "title": "Database statements", "statement": "For every number of tries above zero and whatever the database answers, sqlite3_exists, the single-lookup functions, sqlite_command and sqlQuery objects use only open statements, read columns only when there is a row and finalise every statement exactly once: a program that uses them holds open exactly the statements of its sqlQuery objects alive, and none when they are gone. The lookups report success exactly if the settled answer (the first that is not busy or locked) is a row, and then the value; otherwise number and string arguments keep their value. Reading a query row by row yields every row once and in order, in spite of up to four busy answers before each. Defects: zero tries finalise an uninitialised pointer; copying a sqlQuery finalises its statement twice.", "quantifier": "every database behaviour and every program", "why_tests_cant": "all interleavings of answers", "anchors": ["sqlite3util.cpp: sqlite3_prepare_statement, sqlite3_run_query, sqlite3_exists, sqlite3_single_lookup, sqlite_single_lookup, sqlite_command, sqlQuery"]}
{"id": "C59", "title": "F16 and floats", "statement": "Construction or assignment of an F16 from a finite float x stores the word nearest to x (the one farther from zero in a tie) if -32768 <= x < 32768, whatever the float, except at the numbers below; a float out of range or infinite is undefined (no saturation), not-a-number gives zero, a double is first rounded to a float. f() is exact for words up to 2^24 steps (256) and within one part in 2^24 above; converting it back gives the same word up to 2^24 steps with the same exceptions. Comparisons with a float are exact up to 2^24 steps. Multiplying or dividing a word of up to 2^24 steps by a float gives a word within one step and one part in 2^24 of the exact result (one part in 2^22 for other words), the exact result if that is a word of up to 2^24 steps, is defined up to 32767 and undefined from 32769 on. Defects: one half is added in single precision, so the float next below half a step gives one step, and every odd word between 128 and 256 moves a step away from zero when converted from its own exact float; the 64 largest words do not survive f(); beyond 256 different numbers compare equal.", "quantifier": "every float, every word", "why_tests_cant": "2^32 floats times 2^32 words", "anchors": ["F16.h: _f16_round, F16(float), F16(double), f, operator=(float), operator*(float), operator/(float), operator>(float), operator<(float), operator==(float)"]}
{"id": "C72", "title": "Default SQL file", "statement": "If program and version are single lines, key names and defaults have no apostrophe and no description has both kinds of quotes, then running the text of getDefaultSQL on any configuration database adds, in the order of the keys, exactly one row (name, default, static flag, 0, comment) for each key of the schema that has none, and leaves all existing rows as they are; afterwards every key has a row and running the text again changes nothing. The comment is the description, preceded by the meaning of 0 and 1 for booleans and followed by Static. for static keys. Defects: an apostrophe in a default has the file refused or what follows it read as SQL; a description with both kinds of quotes or a line break in the program name have it refused.", "quantifier": "every schema, every program and version, every database content", "why_tests_cant": "unbounded schemas and texts; tests would need a database", "anchors": ["Configuration.cpp: ConfigurationTable::getDefaultSQL"]}
{"id": "C73", "title": "TeX documentation", "statement": "getTeX lists every key of the schema exactly once, in the section of its visibility (site; customer, tuneable and warned; developer and factory) and in the order of the keys, between the fixed section headings, and in the whole text every ^ and _ is preceded by one backslash and nothing else is changed. Defect: other characters special to TeX (# % & $ { }) pass as they are, and a text already escaped is broken.", "quantifier": "every schema, every program and version", "why_tests_cant": "unbounded schemas and texts", "anchors": ["Configuration.cpp: ConfigurationTable::getTeX"]}
{"id": "C74", "title": "Searching the configuration", "statement": "For a pattern without double quote, percent sign and underscore ConfigurationTable::find prints exactly the rows whose key contains the pattern, upper and lower case letters taken as equal, in the order of the table, one per line: key, space, value, or (disabled) for an empty or missing value. Defects: an underscore in the pattern matches any character and a percent sign any text; a double quote has the statement refused and nothing printed.", "quantifier": "every pattern, every table", "why_tests_cant": "unbounded patterns and tables; needs a database", "anchors": ["Configuration.cpp: ConfigurationTable::find"]}
{"id": "C75", "title": "The schema", "statement": "The schema of a table has the four keys of the library, as the library defines them, and every other key given by the program, each once and in ascending order: a program cannot override the library's keys. keyDefinedInSchema, isStatic and the default lookup answer by that schema; getSimilarKeys returns exactly the entries whose key contains the text, in order. The program name is kept in its 20 bytes whatever its length: its first 18 characters and a colon. Defect: validating a value for a key outside the schema adds that key to the schema, with no type set; lookups of it then give an empty value instead of failing.", "quantifier": "every schema given, every key, text and program name", "why_tests_cant": "unbounded schemas and names", "anchors": ["Configuration.cpp: ConfigurationTable::ConfigurationTable, keyDefinedInSchema, isStatic, getSimilarKeys"]}
{"id": "C76", "title": "Printing a configuration key", "statement": "printDescription prints each property of a key on a line of its own, with optional lines for units and default, one line for each choice of a list of described choices and for each range of a list of ranges (the step left out), in order, and one line for each scope; printKey marks a value as default exactly if it is the default and shows an empty value as (disabled). The names of the types and of the visibility levels differ. Booleans list their two values, strings their expression; the other types, optional choices and strings among them, show the text of the schema as it is. Defects: in a list of choices without descriptions each line has the whole rest of the list followed by the whole list; the scope same across neighbours is printed twice.", "quantifier": "every key", "why_tests_cant": "unbounded lists of valid values", "anchors": ["Configuration.cpp: ConfigurationKey::printKey, printDescription, typeToString, visibilityLevelToString"]}
{"id": "C77", "title": "Threads run their task once", "statement": "Every thread started by a Thread object calls the task given to start or start2 exactly once with the given argument; its history is always an initial part of: started, ran, returned, joined by the object that started it, and starting never waits for it. start returns exactly if the object is not running (never started, or joined since), its stack size is at least 16384 and the system creates the thread; otherwise the program aborts. join waits until the task has returned and afterwards the object can be started again; joining oneself aborts. The arguments are copied before start returns and are freed exactly once, so that none is left when the threads have begun. Undefined exactly: joining an object not started or already joined. Defects: a negative stack size for start2 becomes a huge one; a thread not joined is kept by the system for ever, even after its object is destroyed; the alert for a failed creation always names error 1.", "quantifier": "every program of starts, joins and destructions by any number of threads, every schedule and every answer of the system", "why_tests_cant": "all interleavings and failures of thread creation", "anchors": ["Threads.h: class Thread", "Threads.cpp: thread_main, Thread::start, Thread::start2"]}
{"id": "C78", "title": "Lines written with COUT and CERR", "statement": "Whatever the schedule, the text written by several threads with COUT or CERR is made of whole lines: the pieces of one use of the macro followed by its line end are never mixed with those of another, each thread's lines appear in its order, and in a finished program every line is there once. Some thread can always go on. Defects: if computing a piece itself uses the macro, its line is written inside the other one; if it throws, the lock is never released and every later use waits for ever.", "quantifier": "every number of threads, every list of uses and every schedule", "why_tests_cant": "all interleavings of threads", "anchors": ["Threads.h: COUT, CERR, class Mutex", "Threads.cpp: lockCerr, unlockCerr, lockCout, unlockCout"]}
{"id": "C79", "title": "Memory leak counters", "statement": "In every program mMemTotal of a class is the number of its objects constructed, and mMemNow is the number of its objects alive less the number of copies ever made. So without copies mMemNow is exactly the number of objects alive and the debugging assertion never fails. If there are no copies and assignments and each object is labelled at most once, with a label that is not empty, mMemMap of a label is the number of objects alive with it. Defects: copies are counted when destroyed but not when made, so making a copy and destroying both gives -1, or aborts with debugging on; an object never labelled is taken off the count of the empty label when destroyed; labelling again or assigning leaves counts of objects that are gone.", "quantifier": "every program of constructions, copies, assignments, labellings and destructions", "why_tests_cant": "all histories of objects", "anchors": ["MemoryLeak.h: DEFINE_MEMORY_LEAK_DETECTOR_CLASS, RN_MEMLOG, MemLabel", "Utils.cpp: MemStats::MemStats, memChkNew, memChkDel"]}
{"id": "C80", "title": "Scanning texts with myscanf", "statement": "For formats made of white space, other characters, %%, %s and %[...], also with a width or suppressed, and at least as many strings as conversions, myscanf with two to four strings follows the format as far as the text allows, each conversion taking the longest text it can; it sets exactly the strings of the conversions that took something, to what they took, leaves the others as they were, and returns their number, or -1 if the text ended before any. No buffer overflows, whatever the text. If the text is the format filled in, all pieces come back. Defects: the form with one string reads a buffer never written whenever nothing was taken; %c leaves the text without its NUL, so that memory never written is read.", "quantifier": "every text without NUL, every such format, all old values of the strings", "why_tests_cant": "all texts and formats", "anchors": ["Utils.cpp: myscanf"]}
{"id": "C81", "title": "Texts of times", "statement": "Timeval::isoTime prints, for the years 0 to 9999, the Gregorian date and time of day as YYYY-MM-DDThh:mm:ss, followed by Z for universal time; the texts of universal times sort like the times, and for every year the text determines the time. It is undefined exactly for years that are beyond an int or less than 1900 above its lower end. Local time is the same for the clock shifted by the zone. timestr prints the local time with tenths, cut to its last fieldwidth characters. Defect: the text of a local time has no zone, so when the clock is put back two times have the same text.", "quantifier": "every time, time zone and field width", "why_tests_cant": "all times, including those no test can wait for", "anchors": ["Timeval.cpp: Timeval::isoTime", "Utils.cpp: timestr"]}
{"id": "C82", "title": "Read-write lock", "statement": "If threads lock an RWLock only when they do not have it and unlock it only when they do, then in every interleaving a thread that locked it for writing excludes all others, wlock waits exactly while any thread has the lock and rlock exactly while one has it for writing, trywlock and tryrlock never wait and return false in exactly these cases, and unlock always works. Defects: errors of locking are ignored, so that a thread which has it for writing and locks again is told nothing, has no second lock, and after its first unlock another may write; a thread that has it for reading and calls wlock waits for ever whatever the others do; readers that overlap can keep a writer out for any length of time.", "quantifier": "every number of threads, every interleaving of calls", "why_tests_cant": "all interleavings", "anchors": ["Threads.h: RWLock", "Threads.cpp: RWLock"]}
{"id": "C83", "title": "Energy and signal to noise of soft bits", "statement": "For soft bits from 0 to 1, at least one and at most 2^20, getEnergy gives the mean of |2b-1| with an error of at most len*(mean/2000000 + 2^-35) and the least of |2b-1| within 2^-23, and getSNR gives the ratio of len/4 to the sum of the squared distances from the nearer of 0 and 1 with a relative error of at most len/4000000 + 2^-21, or 999 if the ratio is more than about 1000, always from 0 to 1001. All bits 0 or 1: lowest energy 1, ratio 999; all bits one half: energies 0, ratio 1; no bits: energy 0, lowest 1, ratio 0. A bit that is not a number makes both average and ratio not a number; without one the ratio is always a number and not negative, even with infinite bits. Defects: ten certain bits have an average energy greater than 1; a noisier vector may be given a ratio above 999, the ratio of all cleaner ones.", "quantifier": "every vector of soft bits of at most 2^20 bits (fewer than 2^24 for all one half, 2^31 for the others)", "why_tests_cant": "rounding of every sum, over all vectors", "anchors": ["BitVector.cpp: SoftVector::getEnergy", "BitVector.cpp: SoftVector::getSNR"]}
{"id": "C84", "title": "Initialisation of logging and the log file", "statement": "Over every history of initialisations, records and configuration changes in one thread: the first initialisation that can opens the log file - gLogInit with Log.File of more than three characters, in a program named Open..., RMSC... or RangeFinderGW..., gLogInitWithFile with any path that is not empty - and no later one opens another; the file then holds 'Starting at' with the local time and after it exactly the records that go to syslog from then on, in order, one line each; no other file changes. A level given at initialisation becomes Log.Level and no other key changes; if its name is not known, one critical record says so and the default replaces it. The level of a record can be read from its line; levels above DEBUG are refused, negative ones are undefined. The level for mutexes is the one prescribed at that moment. The groups start at level 0. Defects: after that nothing but initialising changes the level for mutexes, and initialising again does not either while the old one is cached; after gLogInitWithFile alone all records carry the process number 0.", "quantifier": "every history, every configuration and text without NUL", "why_tests_cant": "histories", "anchors": ["Logger.cpp: gLogInit, gLogInitWithFile, Log::get, Log::~Log, LogGroup::LogGroupInit", "Logger.h: LOG, _LOG", "Configuration.cpp: gCmdName"]}
{"id": "C85", "title": "The committer of the reporting tables and its end", "statement": "In every interleaving of incr, create, reportShutdown and the steps of the committer threads: with gReports alone and its database working, every increment of a created counter is stored or still pending, and whatever was incremented before the committer woke from its sleep is stored when it next tests the flag, and so also when it has ended. A committer that has begun never ends without a shutdown; after a shutdown each committer that has begun commits at most once more - not at all if it was not asleep or about to commit - and left to itself ends after a bounded number of steps. incr always answers true; create answers whether the table is open and the command succeeded. Defects: an increment made before the shutdown while a commit is being written is never stored; a shutdown before the committer thread begins is lost for ever; after the end nothing is stored though incr answers true; tables other than gReports, and gReports if it could not be opened, store nothing at all, and in the second case a committer of another table throws the increments away.", "quantifier": "every interleaving, any number of tables and threads", "why_tests_cant": "interleavings of threads with sleeps of ten seconds", "anchors": ["Reporting.cpp: ReportingTable::ReportingTable, reportingBatchCommitter, commit, incr, create", "Reporting.h: reportShutdown"]}
{"id": "C86", "title": "Configuration values read as floats", "statement": "getFloat reads white space, an optional sign and a decimal or hexadecimal number (digits with at most one point, optional exponent) as the float nearest to the exact value of the text: no other float is nearer, of two equally near the even one, infinity exactly from half way beyond the largest float on. So a text that denotes a float is read exactly, a text nearer to a float than half way to any other gives that float back, larger numbers are never read as smaller floats, and a long written by set is read as the nearest float, exactly up to 2^24 in size. inf, infinity and nan are read in any case; anything else is 0. number and floatNumber log a message exactly when something is left unread or the value is empty, and for one cached record at most once: the first request that cannot read the value completely, whatever the order of requests; the results do not depend on earlier warnings. A decimal integer without a leading zero means the same number to getNum and getFloat. Defect: with a leading zero it does not (017 is 15 and 17).", "quantifier": "every text, every long, every list of requests", "why_tests_cant": "all numbers, all texts, and rounding half way cases", "anchors": ["Configuration.cpp: ConfigurationRecord::number, ConfigurationRecord::floatNumber, getFloat"]}
{"id": "C87", "title": "Database lookups by number and by text", "statement": "On a table with TEXT, INTEGER or untyped columns, each lookup of sqlite3util finds the rows whose key cell is meant by the key, in the order of the table: a number by its value (in a TEXT column by its decimal text), a text literally (in an INTEGER column, if it looks like an integer, by its value). sqlQuery gives all these rows with the columns asked for (a list in any order, names in any case, or *), sqlStep visits each once; getResultText and getResultInt give the columns. The single lookups give the first such row: the text or a copy of it (no copy of NULL), the number modulo 2^32, and when there is no row or no answer return false and leave the caller's variable alone (valueData becomes NULL for the copying ones). Buffers never overflow. In TEXT and INTEGER columns a number and its text find the same. Proved for plain names and, for texts as keys, without quotes and, where the key is put in double quotes, not the name of a column; for the functions with sqlQuery the condition has at most 99 and the statement other than 199 and at most 5000 characters. Defects: beyond these bounds a key of 12 finds the row of 1; in an untyped column number and text find different rows; a key with a quote can select every row, and a key equal to a column name is compared with that column.", "quantifier": "every table, every list of rows, every key and all plain names", "why_tests_cant": "all tables, all keys, all lengths of names; type conversions of the database", "anchors": ["sqlite3util.cpp: condition_u, sqlQuery, getResultText, getResultInt, sqlite3_exists, sqlite3_single_lookup, sqlite_single_lookup, sqlite_single_lookup_string"]}
{"id": "C88", "title": "Initialised scalars and fields of a message", "statement": "A variable of one of the scalar types starts with its initial value and after any sequence of ++, --, +=, -=, =, reading and writes through its address holds the exact result of the operations modulo the number of values of its type, always a value of the type; operators before the variable return the new value, those behind it the old one. Unsigned and narrow types never overflow; int and int32_t are exact as long as every intermediate result is an int and otherwise undefined, exactly then. bool keeps 0 or 1, 0 only for 0. Fields written one after the other into a bit vector are read back by fields of the same widths as their values modulo their widths, all else untouched, hence unchanged exactly if every value is below 2 to its width. Defect: the width of a field is not enforced: a field of 3 bits counts from 7 to 8 and on, and what is read back differs.", "quantifier": "every type, every list of operations, every list of fields and widths up to 64", "why_tests_cant": "all operation sequences and all values, undefined overflow", "anchors": ["ScalarTypes.h: _INITIALIZED_SCALAR_BASE_FUNCS, _INITIALIZED_SCALAR_ARITH_FUNCS, Bool_i, Enum_z, Field_i, Field_z, Field", "BitVector.cpp: writeField, readField"]}
{"id": "C89", "title": "Times as seconds, and sleeping", "statement": "Before the year 2242 Timeval::seconds and timef are within half a microsecond of the time, so two such numbers compare as the times do, are equal only for equal times, and their difference is the elapsed time to less than a microsecond. Printing a Timeval on a stream of precision 6 writes the seconds, a point and exactly the six digits of the microseconds, behind what was written before. sleepf does not sleep up to 10 microseconds, sleeps the time asked for to little more than a microsecond, never noticeably longer, below 2^32 microseconds and is undefined from there on; n/1000000 seconds last n or n-1 microseconds. msleep sleeps exactly v milliseconds for 0 <= v <= 4294967. Defects: from 2^33 seconds on the digits are wrong, printing leaves the stream in fixed format, sleepf(0.000249) sleeps 248 microseconds and sleepf of infinity is undefined, msleep(4294968) sleeps 704 microseconds and msleep(-1) more than an hour.", "quantifier": "all times before 2^33 seconds, all doubles, all longs", "why_tests_cant": "rounding at every double, and the boundary of the year 2242", "anchors": ["Timeval.cpp: seconds, operator<<", "Timeval.h: msleep", "Utils.cpp: timef, sleepf"]}
{"id": "C90", "title": "Construction of a configuration table", "statement": "A table whose file can be opened has the schema of the library and the program, leaves the file as it is, logs a heading and then, in the order of the keys, exactly the keys of the schema whose value in the database differs from the default, with value and default; no exception arises, whatever the database and the clock do. From then on getStr, defines, set, remove, keyDefinedInSchema, isStatic and crossCheck answer like a map with defaults, at any time, with the update hook set to purge the cache or not and called by SQLite or not; crossCheck uses the hook set last and returns nothing without one. find prints exactly the rows whose key contains the pattern and getAllPairs returns exactly the rows, as the sets and removes carried out so far left them and not from the cache; while the database does not answer both return nothing. A value looked up is returned again until three seconds after the last purge, whatever happened to the database since. A table whose file cannot be opened has the program name set but no keys at all: every call that needs the database aborts, find and getAllPairs return nothing. Defects: crossCheck on it is undefined unless a hook was set; and if the database does not answer during the construction the defaults are returned for three seconds though it answers again.", "quantifier": "all files, schemas, program names, all sequences of calls at all times", "why_tests_cant": "all sequences of calls, uninitialised members, the interplay of hook and cache", "anchors": ["Configuration.cpp: ConfigurationTable, getStr, defines, set, remove, setUpdateHook, setCrossCheckHook, crossCheck, find, getAllPairs"]}
{"id": "C91", "title": "What a printf format denotes", "statement": "A format made of plain characters, %% and directives with the flags - and 0, a width, a precision, l or ll and one of d i u x X c s, with an argument of the right type and range for each of them, gives exactly the texts of its parts one after the other, as the C standard says: the numeral without leading zeros or with as many digits as the precision asks for, filled with blanks or zeros to the width on the right side, never cut; a text up to its first zero byte, cut to the precision; width and precision taken from the arguments where the format says *, a negative one meaning to the left or none. Arguments left over do not matter; every other format or argument list is undefined. Each directive has exactly one text. The text of %d, %u and %ld is read back by strtol as the number. With the formats written in the code the time texts, the statements for the database, the cells of printPrettyTable and Mutex::mutext are those the other properties use. Defects of use: a number printed with leading zeros is read back as octal; a text with a percent sign used as a format is undefined.", "quantifier": "all formats, all argument lists, all numbers and texts", "why_tests_cant": "all formats and arguments; the varargs are unchecked, the corner cases of flags, width and precision are too many for examples", "anchors": ["Utils.cpp: format, format1, osprintf, timestr, printPrettyTable", "Utils.h: format", "Timeval.cpp: isoTime", "Configuration.cpp: set", "Reporting.cpp", "sqlite3util.cpp", "Threads.cpp: Mutex::mutext"]}
{"id": "C92", "title": "Threads that use a configuration table at the same time", "statement": "Threads may call getStr, set, remove, purge and, for known names, isValidValue of one configuration table at the same time, in any interleaving of their single steps (taking the lock, reading and writing the cache, the schema and the time of the last purge, the statements for the database), while time goes on and other processes change the database between any two steps. There is then an order of the calls, in which each call has exactly one position, between its first and its last step, and sees the clock of a moment in between, such that the calls performed one after the other, each at once (as in C44-C47), return the same results and leave the same rows, and while no thread holds the lock also the same cache and the same time of the last purge. No thread reads an entry of the cache that another erased, every call can be brought to its end, by steps of the thread that holds the lock and of its own, and no two threads access the same memory with one of them writing. The last three hold for any number of tables and any names, with two exceptions. Defect: the time of the last purge is one static variable for all tables, each of which has its own lock, so reads of two tables race. Defect: isValidValue takes no lock, and for an unknown name it makes an entry in the schema: this races with getStr and set, and getStr, which would throw, returns an empty text.", "quantifier": "all numbers of threads, all sequences of calls, all interleavings of their steps, all changes by other processes and of the clock, all contents of the table", "why_tests_cant": "the interleavings are too many and their choice is not in the hands of a test; a race or an erased entry shows rarely and without a symptom in the test", "anchors": ["Configuration.cpp: ConfigurationTable::lookup, getStr, set, remove, purge, checkCacheAge, isValidValue", "Threads.h: ScopedLock"]}
{"id": "C93", "title": "Regular expressions", "statement": "Class Regexp, the STRING and REGEX keys of the configuration and the fixed patterns of FILEPATH, HOSTANDPORT and VALRANGE use extended regular expressions. regcomp accepts exactly the texts built by the POSIX rules (alternatives, sequences, groups, anchors, any character, bracket expressions with ranges and classes, escaped characters, the repetitions *, +, ?, {a}, {a,b} with a <= b <= 32767 and either number left out before the comma or behind it), no text can be read in two ways, and all others are errors, apart from the texts with GNU escapes, collating symbols, neighbouring hyphens in brackets or a backslash in an interval, which the model does not cover. A search succeeds exactly if some part of the text matches by the meaning of the expression, also for nested repetitions of what can be empty. The constructor of Regexp calls abort for an error and otherwise match is this search. An expression without special characters finds the texts that contain it, with ^, $ or both those that begin with it, end with it or are equal to it. The four constant patterns accept the non-empty texts of the characters listed. A REGEX key accepts exactly the expressions; a STRING key accepts exactly the values in which the expression of the schema is found, and no value if that is an error. Defect: whoever writes a schema pattern without anchors, for instance [0-9]+, accepts any value that contains an accepted one.", "quantifier": "all patterns, all texts, all schemas and values", "why_tests_cant": "patterns and texts are unlimited; a test shows that some are accepted, not that the others are refused", "anchors": ["Regexp.h: class Regexp", "Configuration.cpp: ConfigurationTable::isValidValue (FILEPATH, HOSTANDPORT, REGEX, STRING, VALRANGE)"]}
{"id": "C94", "title": "Ranges of floats, and reading values that were checked", "statement": "A VALRANGE key whose valid values have a point, lo:hi with or without a stepping in parentheses, accepts a value exactly if it is a non-empty text of digits, points and hyphens and the decimal number it begins with lies between the bounds, where all three count as the single-precision floats nearest to them and what is too large as the largest float. So each number between the bounds is accepted, and a number outside only if it is the same float as the bound. getFloat of an accepted value returns a float between those of the bounds; it is infinite only if the value is too large for a float and the bound as well. getNum of a value accepted for a range of integers lies in the range unless the value has a leading zero. Defects: behind the number anything of these characters may follow (1.2.3.4, 2-7), a value without a number counts as 0, numbers a little outside are accepted (3.0000001 for an upper bound 3.0) and steppings are not looked at; a missing bound is an uninitialised variable; a leading zero is ignored by the check but getNum reads the value as octal, so 010 is accepted for 10:20 and read as 8.", "quantifier": "all bounds, steppings, values and schemas", "why_tests_cant": "there are infinitely many texts of numbers; the floats near a bound and the texts with a leading zero are rarely among the samples", "anchors": ["Configuration.cpp: ConfigurationKey::isInValRange<float>, getMinMaxStepping, ConfigurationTable::isValidValue (VALRANGE), getFloat, getNum"]}
{"id": "C95", "title": "Bit fields with any index and length", "statement": "fillField and fillFieldReversed with any 64-bit index, any 32-bit length and any value, on a vector anywhere in memory: they abort and change nothing exactly if the last char of the field, counted with addresses of 64 bits, is not before the end of the vector; otherwise the chars of the field, and no others, get the bits of the value; a field that would wrap around the end of memory is not written at all; a length of 0 changes nothing. As long as index and length do not wrap this is what C01, C02 and C04 say of the contents, and everything outside the vector keeps its value. peekField returns the bits at the addresses of the field whatever they belong to, peekFieldReversed the same with the check of the last char; inside the vector these are its elements. Defects: every negative index whose field ends before the end of the vector is accepted, and the memory before the vector overwritten; peekField behind the vector returns what lies there; peekFieldReversed of more than 2^31 chars returns 0.", "quantifier": "every vector, memory, index, length and value", "why_tests_cant": "2^64 indices; what lies around a vector differs from run to run, and writing there need not show", "anchors": ["BitVector.cpp: fillField, fillFieldReversed, peekField, peekFieldReversed"]}
{"id": "C96", "title": "Signals and registrations with threads", "statement": "Any number of threads call UnixSignal::Register and receive signals, each between any two steps of any thread. Two threads are never at the same list of handlers at a time, and a list is not read in the middle of an insertion unless the signal interrupts that very insertion. Threads that only register never block each other for good; when they are through, each list has exactly the handlers registered for its signal (in the order of the calls, if one thread made them), and exactly the signals between 1 and 63 with a handler, other than SIGKILL and SIGSTOP, are caught. Once nobody registers any more signals may come at any moment to any thread, also while others are handled: nothing is undefined, as long as a handler is under way some thread can go on, each signal caught makes its thread call the registered handlers, all of them in their order, and if the default action of a signal sent ends a process then the process has ended when the handlers are through. The core file is named mCoreFile, with a dot and the pid if wanted, cut to 8190 chars. Defects: two threads that register and are each interrupted by the signal the other registers for wait for ever; a signal that interrupts the insertion for it reads a list half changed; one that comes after signal and before the insertion ends the process without its handler; two threads may both call all handlers for a signal; a signal whose default is to be ignored is handled only once.", "quantifier": "every number of threads, every sequence of registrations and signals and every interleaving with them, without bound", "why_tests_cant": "the moments at which signals arrive cannot be chosen by a test, and a deadlock of handlers needs two of them at the right steps", "anchors": ["UnixSignal.cpp: _sigHandler, UnixSignal::Handler, UnixSignal::Register", "UnixSignal.h: class UnixSignal"]}
{"id": "C97", "title": "Reference-counted pointers with threads", "statement": "Any number of threads create objects, copy RefCntPointers, hand them over to each other, move them into the members of new objects, destroy and free them, each step of incRefCnt and decRefCnt between any two steps of other threads. As long as a pointer variable is used by one thread at a time, no deleted object is ever touched and none is deleted twice; what a variable, or a member of a living object, points to is alive. At any time the count of a living object is the number of pointers to it plus the releases begun and not yet counted; when nobody is in a call an object is alive exactly while pointers refer to it, and once no variable is left every object has been deleted. The locks never block the threads for good, and every call ends after a bounded number of steps. The assertions fail only if an object has 32768 pointers. Defects: with 32768 pointers the next copy and the destruction of any of them abort; free() reads the count without the lock while another thread may be writing it; copying a variable that another thread is destroying touches a deleted object, as the lock is inside the object.", "quantifier": "every number of threads and objects, every sequence of operations and every interleaving of their steps, without bound", "why_tests_cant": "a wrong count shows only in rare interleavings of two threads, and a use after delete may go unnoticed in a test", "anchors": ["Utils.cpp: RefCntBase::decRefCnt, RefCntBase::incRefCnt", "Utils.h: class RefCntBase, class RefCntPointer"]}
{"id": "C98", "title": "Log records and alarms with threads", "statement": "Any number of threads finish log records, call gGetLoggerAlarms and gConfig, each single step (taking and giving back alarmsLock, the lock of gConfig and gLogToLock, one change of the list, one output) between any two steps of others, while Log.Alarms.Max changes. Nothing is undefined. Each record goes to the system log exactly once, in the order of its thread. The log file consists of whole lines, one for each record, in an order that keeps that of each thread; only while gLogToLock is held may the last line be incomplete. While alarmsLock is free the list of alarms is what the alarms that are through leave when added one after the other, in an order that keeps that of each thread; with a constant limit the last ones. A copy made by gGetLoggerAlarms is the list of one moment of the call. As long as no record from CRIT up is finished inside gConfig, some thread can always go on, and all come to their end after a bounded number of steps; a record finished while the others rest has the effects of C64. Defects: stderr is written without a lock, so two alarms may come on one line; a critical record inside gConfig can block two threads for ever; without a limit (and default) an alarm throws with alarmsLock held, reaches no log, and blocks the alarms of all other threads.", "quantifier": "every number of threads, every sequence of records, reads and changes of the limit, every interleaving of their steps, without bound", "why_tests_cant": "interleavings of the locks and outputs cannot be chosen by a test; a deadlock or a mixed line is rare", "anchors": ["Logger.cpp: Log::~Log, addAlarm, gGetLoggerAlarms"]}
{"id": "C99", "title": "A whole LOG statement", "statement": "LOG asks gConfig for the level of the file and, for an alarm, for the length of the list; gConfig asks the database; the database logs its failures. Whatever the state of the caches, the clock and the failures, these calls are nested at most three deep and every LOG statement ends. With Log.Level and Log.Alarms.Max in the schema, and values, keys and descriptions without quotes: at most six statements of SQL are run by one LOG; for each one that fails there is exactly one record of level ERR; besides there is at most one record CRIT, about an unknown level under Log.Level or Log.Level.<file>, and the record of the statement itself, which is there exactly if its level is within the level found, and that level is what is remembered for the file. A remembered level decides alone, without SQL unless the record is an alarm. While the database answers and the cache agrees with it, the level found is the prescribed one (as in C52, of the row or the default), an unknown level is replaced by the default in the database, nothing else is changed or reported, and no exception leaves. The list of alarms is always a tail of the old one with the new alarms behind, while the database answers the last Log.Alarms.Max of them. An exception leaves LOG only if SQL failed, the clock moved on during the statement, and the file has a level of its own that is not in the schema. Any number of LOG statements run through this way, and their records of failures count the failures. Defects: one failed look-up silences a file for the next thousand LOG statements; a failed look-up when the three seconds of the cache end makes LOG throw; without Log.Alarms.Max an alarm ends the program; if the database cannot be written an unknown level is an alarm again and again and drives out the others.", "quantifier": "every cache, database, clock, pattern of failing statements, file, level and sequence of LOG statements, without bound", "why_tests_cant": "which statements of SQL fail and when a second ends cannot be chosen by a test, and the recursion between the three parts runs only then", "anchors": ["Logger.h: LOG", "Logger.cpp: gGetLoggingLevel, getLoggingLevel, lookupLevel2, Log::~Log, addAlarm", "Configuration.cpp: lookup, defines, getStr, set", "sqlite3util.cpp: sqlite3_single_lookup, sqlite3_command"]}
{"id": "C100", "title": "UDPSockets talking to each other", "statement": "With any number of UDPSocket objects on a host, opened and destroyed, and packets from outside: every socket reads the packets that arrived for it in the order of arrival, each once, none invented, cut to 1500 bytes, with the address and port of the sender. With none left, read waits if the socket is blocking (as it is when made) and returns -1 if it is not; read with a timeout always returns. write goes to the destination last set (a name that does not resolve, or not to IPv4, leaves the old one), writeBack to the sender of the packet last read, send to the address given, each with all the bytes given (a text with its NUL) or -1 and nothing sent; none of them changes a destination. port() is the port the socket was opened with, for 0 one of 1..65535 that no other socket had. A request written and its answer written back arrive as they were sent, for all messages up to 1500 bytes, if no socket was bound to one of the ports later. The only undefined call is writeBack before the first packet is read. Defects: a packet of 1501 to 65507 bytes is cut though the sender is told that all was sent; so a text of 1500 characters or more arrives without its NUL; and because of SO_REUSEADDR a port in use can be opened again without an error, after which the new socket gets every packet and the old one none.", "quantifier": "every number of sockets, port, name, message, loss of packets, packet from outside, and sequence of calls, without bound", "why_tests_cant": "which packets are lost and how sockets, ports and modes interleave over a long life cannot be enumerated by a test", "anchors": ["Sockets.cpp: DatagramSocket::nonblocking, blocking, write, writeBack, send, read", "Sockets.cpp: UDPSocket::UDPSocket, open, destination, port"]}
{"id": "C101", "title": "UnixSignal objects from construction to destruction", "statement": "In a program with gSigVec and any number of other UnixSignal objects that also calls signal itself: the disposition of a signal is the one last given to it by Register of any object, by the program, by the end of any object or by having been handled. A signal that is caught makes exactly the handlers registered with gSigVec for it run, once each, in order, then it takes its default effect; for the signals that dump core the core file and, if wanted, the archive have the names last given to gSigVec (the file core without the pid if none). A new object has no handlers and changes no disposition. Handler called directly runs the handlers of its object. Dump prints one line for each signal with handlers, and its text tells exactly which handlers are registered for which signal. No call is undefined apart from those on an object destroyed before and the defects. Defects: handlers registered with any other object never run though the signal is caught; the end of any object, also one never used, makes every signal below 64 take its default effect again, whether gSigVec or the program handled it or it was ignored (SIGPIPE then ends the process); after the end of gSigVec a signal registered with another object is undefined; Handler of an object whose TarName was not called reads a member never set, unless the object is global.", "quantifier": "every number of objects, handler, signal, name, inherited disposition and sequence of calls and signals, without bound", "why_tests_cant": "objects, dispositions and signals interact over the whole life of a process, most combinations end the process of the test, and reading a member never set usually goes unnoticed", "anchors": ["UnixSignal.cpp: UnixSignal::UnixSignal, ~UnixSignal, Register, Handler, Dump, _sigHandler", "UnixSignal.h: CoreName, TarName"]}
{"id": "C102", "title": "What a Statistic prints", "statement": "A Statistic of whole numbers prints, before any sample, (0); while all samples are the same, the last one in parentheses; otherwise, for fewer than a million samples of magnitude up to 2^32, the last sample, the true least and greatest, the average and the exact number of samples, each under its name. The average is a decimal number, with an exponent where it is large or small, within one part in 199999 of the true one: every double is printed as a number with at most as many digits as the precision says, within half a unit of the last digit. Two lists of samples that print the same have the same last, least and greatest sample, and the same number if the samples differ. Defects: from a million samples on that are not all the same the number is shortened with strcpy between places that overlap, which is undefined (where strcpy copies from the front three digits of it are shown); the average shown can be greater than the greatest value shown; after a Timeval was printed on a stream, averages there are printed with fixed digits.", "quantifier": "every list of samples, every precision, every double between 10^-400 and 10^400 in magnitude", "why_tests_cant": "a million samples are not printed in unit tests, overlapping copies usually seem to work, and rounding depends on all digits", "anchors": ["Utils.h: Statistic::text, getAvg", "Utils.cpp: operator<< of Statistic<int> and Statistic<unsigned>"]}
{"id": "C103", "title": "Calls that wait up to a number of milliseconds", "statement": "Whatever the other threads, the clock and wake-ups do, a read(timeout) of the three queues or get(key,timeout) of the map, with a timeout below 2147481 seconds and a clock that is never set back: returns NULL only when at that moment, under the mutex, there was nothing to take and at least the timeout less two milliseconds had passed since the call; anything else it returns is what was there, taken under the mutex, however late. Its deadline is exactly the timeout after the clock was read, by the queues before they wait for the mutex, by the map once it has it. It sleeps without the mutex, to the deadline to less than a millisecond, later only by what passed between its two looks at the clock; when that time has come and the mutex is free it is over after at most four steps of its own, and when it is woken with something there after two. It is never undefined, can always go on while it has the mutex, and otherwise waits only for a thread that has the mutex or for its time. In all it makes at most nine steps and four more for each wake-up or refused time. With a timeout of 1 it never sleeps. Each turn of its loop does what the monitors of C20 to C26 do with the answer of the clock. Defects: from 2147484000 milliseconds on it is undefined; once a second, while the clock stands, it tests again and again with the mutex locked instead of sleeping; if the clock is set back it sleeps longer by that; iqWaitForEither that finds both queues empty a millisecond after its deadline keeps the mutex and never returns.", "quantifier": "every timeout, every clock, every contents and every sequence of clock changes, locks, changes of the contents and wake-ups around the call", "why_tests_cant": "tests cannot set the clock, reach one microsecond in a second, or wait 25 days, and the order of time-out, wake-up and write is up to the scheduler", "anchors": ["Interthread.h: InterthreadQueue::read(unsigned), InterthreadQueueWithWait::read(unsigned), InterthreadPriorityQueue::read(unsigned), InterthreadMap1::get(key,result,timeout), iqWaitForEither", "Threads.cpp: Signal::wait", "Timeval.cpp: future, delta, timespec"]}
{"id": "C104", "title": "Values that pass validation are read as what was validated", "statement": "A value accepted for an integer range, a port or a boolean is read by getNum and getBool as the number validation saw, so within the range, unless it is written with a leading zero. Whatever keys the program adds to the schema, exactly the following pass for the keys of the library: for Control.NumSQLTries and Log.Alarms.Max digits and hyphens that start with a number from 1 to 10 and from 10 to 20; for Log.File the empty text and paths; for Log.Level the eight names EMERG to DEBUG, which the logger takes for the levels 0 to 7. Their defaults pass, and none of them is static or has a scope. A value accepted for Log.Alarms.Max and set in the table gives, read later by getNum, a number from 10 to 20, and the logger keeps just so many alarms. Defects: validation reads decimal where getNum reads octal behind a zero, so 010 passes for Log.Alarms.Max and counts as 8, and 08 passes for Control.NumSQLTries and counts as 0, as does port 080; hexadecimal numbers are read but never pass; five of the names the logger knows do not pass.", "quantifier": "every value, every range of integers, every schema of the program and every history of table operations", "why_tests_cant": "the two sides are in different functions with different number syntax, and the values are unbounded texts", "anchors": ["Configuration.cpp: ConfigurationTable::isValidValue, ConfigurationTable::ConfigurationTable, ConfigurationRecord::number, ConfigurationTable::getNum, getBool, set", "Logger.cpp: levelStringToInt, addAlarm"]}
{"id": "C105", "title": "A message of fields with parity travels over UDP", "statement": "A program writes any list of fields (each at most 64 bits) with writeField or writeFieldReversed, appends the parity of any generator of length n in 1..63 with writeParityWord, packs the vector with packToString and writes it to a UDPSocket; the other side reads it, unpacks it into a vector of the same size, compares the syndrome with 2^n-1 (0 if parity was not inverted) and reads the fields. For messages up to 12000 bits the reader gets back every value modulo its width. If the generator has a constant term, a packet of that length that differs from the message in at most n consecutive bits, or floor(n/8) consecutive bytes, is refused, unless only padding bits differ, and then the values are right. A packet of zeros is refused if parity is inverted, and passes as a message of zeros if it is not. Defects: unpack has no length, so a packet shorter than the message makes it read what was never received; this happens to every message of more than 12000 bits, which read cuts to 1500 bytes while write reports that all was sent.", "quantifier": "every list of fields, every generator, every position and pattern of damage, every state of the sockets", "why_tests_cant": "the messages, generators and damages are unbounded, and the parts are in different classes that no test combines", "anchors": ["BitVector.h: Parity, Generator", "BitVector.cpp: writeField, writeFieldReversed, readField, readFieldReversed, writeParityWord, syndrome, packToString, unpack", "Sockets.cpp: UDPSocket, DatagramSocket::write, read"]}
{"id": "C106", "title": "Bit vector operations whose operands share storage", "statement": "The source and the destination of map, unmap, copyPunctured, copyUnPunctured, pack, unpack and fill may be windows of one block (segments of one vector, or a vector and a byte pointer into it). With the source at cell s and the destination at cell d, the operation does the same as on a copy of the source in these cases. map: exactly if no index reads a cell that an earlier step has changed to another source element. unmap with distinct indices: exactly if no step reads a cell written by an earlier step. pack of n bits: exactly if the bytes start at most 7 cells after the bits or behind them, so a vector can be packed over itself. unpack of B bytes: exactly if the bytes end before the bits, or start at least 7(B-1) cells after them, that is at the end of the vector. copyPunctured: if d <= s or the source ends before d, so it can be done in place. copyUnPunctured of k indices: if d+k <= s or the source ends before d, so the source can be the tail of the destination. fill: always, also when the value is a reference to an element of the vector. Defects: nothing checks for shared storage; in place the only permutation that map or unmap does right is the identity, unpack over its own bytes is wrong beyond eight bits, and copyUnPunctured onto a vector that starts at the same cell replaces everything from the first index on by 0.5.", "quantifier": "every block, every position of the two windows, every content and every index list", "why_tests_cant": "the outcome depends on how the windows overlap and on the contents; a test tries single overlaps", "anchors": ["BitVector.cpp: map, unmap, pack, unpack, fillField, copyPunctured, SoftVector::copyUnPunctured", "Vector.h: fill"]}
{"id": "C107", "title": "The file of defaults, run by sqlite3 and read through the table", "statement": "Let the text of getDefaultSQL be run on a database (a new one, or one in use) and a program start on it with nothing cached. Then, through any sets, removes and gets of other keys, purges and lapses of time, each key of the schema reads as the value it had in the database before, or as its default if it had no row there, whatever schema the reading program has; keys that are not in the schema of the file read as before. For a program with the schema the file was written from, the file changes nothing: every history of set, remove, get, purge and time gives the same answers with the file run before as without it. On a new database the keys of the library read as defaults that pass isValidValue. Boundary: names and defaults without apostrophe, descriptions with at most one kind of quote, keys and values without double quote that do not name a column (C72, C44). Defect: INSERT OR IGNORE keeps the rows of an earlier version, so after the files of two versions a key nobody ever set reads as the default of the old version; remove brings the new one.", "quantifier": "every schema, every content of the database before, every program that reads the table, every history", "why_tests_cant": "it joins the text of the file, the SQL reader, the cache and the fallback to the schema; a test tries single keys on a single database", "anchors": ["Configuration.cpp: getDefaultSQL, lookup, set, remove, defines", "sqlite3util.cpp: sqlite3_single_lookup, sqlite3_command"]}
{"id": "C108", "title": "A message with parity through an interleaver, puncturing and soft bits", "statement": "A program writes any fields (each at most 64 bits) and the parity of a generator of length n in 1..63 into a vector, interleaves it with map by any permutation, removes the positions of a strictly increasing index list with copyPunctured and makes a SoftVector of it. Whatever soft bits are heard instead, the receiver, with copyUnPunctured, sliced, unmap, the syndrome and readField, gets at each position that was not punctured the bit on whose side of one half the soft bit is, and 0 at punctured positions (NaN is on the side of 0). If every punctured bit is 0 and every other one is off by less than one half, the fields have their values. If the generator has a constant term and the bits that are wrong lie within n consecutive bits of the message, the message is refused; so in that case it is accepted exactly if no bit is wrong, and never with wrong values. Defect: slicing takes an erasure for 0, so a message with a single punctured bit that is 1 is refused though there was no noise.", "quantifier": "every list of fields, generator, permutation, index list and every soft vector that is heard", "why_tests_cant": "it joins field access, parity, permutation, puncturing and slicing for all soft values; a test tries single messages and noise", "anchors": ["BitVector.cpp: map, unmap, copyPunctured, copyUnPunctured, SoftVector::sliced, syndrome, writeParityWord", "BitVector.h: SoftVector, Parity"]}
{"id": "C109", "title": "Iterating a queue while other threads use it, and connected queues", "statement": "Let a queue not be connected by iqConnect. While a thread holds the lock given by qGetLock, its loop from begin() over k elements finds exactly the first k elements that were in the queue, in order, whatever all other threads do in between; the queue stays as it was, none of the steps of the loop is undefined, fails or waits, and after the last element the iterator is at the end. Every other thread that writes, reads, clears or measures the queue waits. begin() fails exactly if no thread holds the lock and none sleeps in read() with it. Connected queues use one mutex as long as neither is connected again, so who holds it keeps the others out of both; three queues share it if connected from the last to the first. Defects: the assertion of begin() does not see whose lock it is, so it passes without the lock while another thread is in read() or holds it, and the iterator is then left without its element; after iqConnect qGetLock is a mutex the queue no longer uses, so an element can be taken away under the iterator; connected from the first to the last, the first of three queues does not share; a thread that calls read() on an empty queue under the lock keeps it while it sleeps: nobody can write and it never gets an element.", "quantifier": "every history of any number of threads and queues, every schedule during the loop, every number of turns", "why_tests_cant": "it is about every schedule of the other threads; a test runs some schedules, and the unsafe iterator mostly works", "anchors": ["Interthread.h:116-141 InterthreadQueue, iqConnect, qGetLock, begin, end", "Interthread.h:189-321 clear, size, read, front, readNoBlock, write, write_front", "Threads.cpp:158-187 Mutex", "Threads.h:80 lockcnt"]}
{"id": "C110", "title": "The queue whose elements carry the links, used by threads that own what they write", "statement": "InterthreadQueue over SingleLinkList keeps the links in the elements. Let any number of threads use it, each writing an element only if it has never been written before or a call has given it out since. Then in every execution the list is sound (linked from head to tail without repetition, counted, sizes added up), nothing is undefined, no assertion fails and no loop is endless; the history is one of a sequential double-ended queue, everything written is taken once or still there, in the order written without write_front; totalSize() is the sum of the sizes of what is there modulo 2^32; and when nothing moves any more and a thread still waits in read(), the list is empty. Every execution is one of the queue of C20, so all that is proved there holds. Defects without the duty: an element written again while it is the only one fails the assertion of pop_front at the next read; written again while it is the first of two, the other is lost, size() stays at 2 and clear(), which the destructor calls, never ends; a written NULL is used as an element.", "quantifier": "every number of elements below 2^32, every number of threads, every schedule, every history with that duty", "why_tests_cant": "it is about all schedules together with the structure in memory; a test sees few interleavings and no broken link", "anchors": ["Interthread.h:113-322 InterthreadQueue", "LinkedLists.h:119-172 SingleLinkList, put, get", "LinkedLists.h:104-113 SingleLinkListNode"]}
{"id": "C111", "title": "format called with std::string and numbers", "statement": "Of the functions called format (one with dots, eight that take std::string and int) a call means the one of the eight that fits the arguments, where a std::string is made of a C string or the literal 0 and an int of any number, and which takes each literal 0 as a number where another fitting one does; only if none fits it means the one with dots. It is refused by the compiler exactly for two literal zeros, or for a std::string among arguments that fit none of the eight. With std::strings, C strings that are not NULL, ints, smaller types and unsigned numbers below 2^31 a call that is not refused gives the text printf denotes for these arguments, each std::string up to its first zero byte, whole up to 5000 characters except at 199. It throws exactly if a std::string is to be made of NULL or of the literal 0. Defects: format(\"%d\",0) throws, and so does a 0 beside one other number; beside a text a long or a double is cut to an int, so that %ld is undefined and 4294967297 printed as 1; a std::string after two numbers does not compile.", "quantifier": "every list of arguments of these types, of any length, every format, all values", "why_tests_cant": "which function is taken depends on the types and not the values; there are infinitely many calls, and those in the library are not those a user writes", "anchors": ["Utils.h:39-67 format", "Utils.cpp:129-151 format", "Utils.cpp:168-194 format1"]}
{"id": "C112", "title": "What an F16 and a vector print", "statement": "An F16 is printed, on a stream as it is at the start, as a decimal text of its value with a relative error of at most 1 in 190000. Below 10 in magnitude the text is enough: read as a float by getFloat and converted it gives the F16 again, and different ones print differently. On a stream that was made fixed this holds below 128. A vector prints each element followed by a blank: unsigned numbers printed like this and used as the value of a key come back from getVector, and F16 below 10 come back from the words of getVectorOfStrings. Finite floats other than 0 are printed with a relative error of at most 1 in 199999. Defects: for every whole number from 10 up, it and the next F16 print the same, so that printing a vector of F16 or of floats loses information; on a fixed stream 128 and one 65536th is printed well enough but converted to the next even word.", "quantifier": "every F16, every finite float, vectors of any length, whatever was written before", "why_tests_cant": "there are 2^32 values of F16 and vectors of any length; that the digits suffice depends on three roundings in a row", "anchors": ["F16.h:204-208 operator<<", "F16.h:59-65 F16(float), f", "Vector.h:392-397 operator<<", "Configuration.cpp:765-825 getVectorOfStrings, getVector"]}
{"id": "C113", "title": "A Statistic of floats or doubles", "statement": "For fewer than 2^32 samples of which the first is not NaN, the least and the greatest recorded are the true ones among the samples that are not NaN, infinities included, and the current value is the last sample. For finite samples whose magnitudes add up to at most 2^1022 - always so for floats - the average differs from the true one by at most n+1 parts in 2^52 of the average magnitude and half the smallest double; it is the true one rounded once if the samples are multiples of one power of two and the sum of magnitudes has 53 bits. It prints the last sample, and unless all are equal the least, the greatest, the average and the exact number below a million, each number to one part in 199999. Defects: one NaN, or infinities of both signs, make the average NaN for ever, a NaN as the first sample also the least and the greatest; ten samples of 0.1 have an average below all of them; the average depends on the order (2^53, 1, -2^53 gives 0); two samples near the largest double have an infinite average.", "quantifier": "every list of fewer than 2^32 floats or doubles, with infinities and NaN where said", "why_tests_cant": "rounding errors add up along any order of any number of samples; a test sees single lists", "anchors": ["Utils.h:118-160 Statistic", "Utils.cpp:474-475 operator<<"]}
{"id": "C114", "title": "Iterating an InterthreadMap under its lock", "statement": "A thread that holds qGetLock() and loops from begin() to end() visits, at every turn, the least key beyond the last one in the map as its own calls in the loop have left it, with the data it has then, whatever the other threads do; it finds the end exactly when no key lies beyond. So the keys come in ascending order, none twice; at the end every key that was there at the start and was not removed has been visited; a loop that only looks visits exactly the entries; and it takes no more turns than there are keys, old and written. A turn is defined exactly when its body does not remove the key the iterator is at, and every such walk does happen. No call of another thread gets through meanwhile. A thread that waits in get() without holding the lock gets the data once another thread has written the key, and can go on. Defects: removing the current entry makes the next step undefined; without the lock begin() is not refused and another thread may remove the entry under the iterator; get() of a missing key under the lock sleeps with the lock for ever and shuts out every other thread; a loop that writes a key ahead of itself at every turn never ends.", "quantifier": "every history of the map, every schedule of any number of threads, every list of loop bodies of write, getNoBlock and remove", "why_tests_cant": "the claim is about all interleavings and about iterators that dangle silently; a test that touches a removed node usually passes", "anchors": ["Interthread.h:467-482 write", "Interthread.h:489-497 getNoBlock", "Interthread.h:528-539 get", "Interthread.h:549-558 remove", "Interthread.h:600-605 qGetLock, begin, end"]}
{"id": "C115", "title": "Copies of a PointerFIFO", "statement": "In any program with any number of PointerFIFOs that are constructed, copied, assigned, used and destroyed in any order, every call gives what an unbounded queue of its own would give, provided that a FIFO that has been copied from is not used again before it is assigned to or constructed anew, unless nothing had ever been put into it: the copy goes on where the original was. Defects: nothing prevents the use of both. Then the same pointers are handed out twice, and taking from one makes the other lose the rest while its size still counts them; what is put into the copy appears in the original, whose size becomes 2^32-1; with a FIFO emptied after use, what is put into the copy replaces what is put into the original. And a FIFO that is destroyed or assigned to never gives its nodes back.", "quantifier": "every program of constructions, copies, calls and destructions over any number of variables", "why_tests_cant": "the implicit copy is never written down in the source, and which node is shared depends on the whole history of both objects", "anchors": ["LinkedLists.h:59-101 PointerFIFO", "LinkedLists.cpp:33-84 push_front, put, get, allocate, release"]}
{"id": "C116", "title": "A chain of threads joined by queues", "statement": "Threads that each do for(;;) q[i+1].write(q[i].read()) on a chain of InterthreadQueues lose and double nothing but NULL, whatever the schedule and however many threads read each queue: what was put is at all times in the queues and the hands of the threads. With one thread for each queue what comes out is the beginning of what was put, in order. If no NULL is put and each queue but the last has a reader, then when nothing can happen any more all readers sleep, the queues are empty and the last one has everything: no wake-up is lost though each write signals after it has released the lock. The chain always can come to rest, and every schedule has at most (number of threads) + (4n+3) per item + 2 per wake-up without cause steps. Defects: with two threads reading one queue the order can change; a NULL put in front of an item can leave the item in the queue with the reader asleep for ever.", "quantifier": "every number of stages, of threads for each stage and of producers, every schedule, every sequence of items", "why_tests_cant": "the schedules of several threads over several queues cannot be enumerated, and a lost wake-up shows only in rare ones", "anchors": ["Interthread.h:246-255 read", "Interthread.h:296-311 write", "Threads.h:245-256 Signal"]}
{"id": "C117", "title": "Printing objects through pointers", "statement": "os << p for a pointer p to a Text2Str writes str() of the object as one thing: filled up to the width of the stream, the same whatever base the stream has, and of the stream only the width is changed, whatever manipulators text() uses and even if it fails. str() is the text of what the object inserts, one after the other; an object within an object is the same as its string, so the flags of one never reach the other. A NULL pointer gives (null), a stream that has failed is not changed. os << ss for an ostringstream writes all of its text, takes nothing out of it, and works on the stream itself. Defects: if text() fails in the middle the text is cut short and the stream still counts as good; text(os) called directly does depend on the flags of os and leaves its own behind.", "quantifier": "every text() as a sequence of insertions, manipulators and failures, nested to any depth, every state of the stream", "why_tests_cant": "the combinations of sticky flags and nested objects are unbounded, and tests print on fresh streams", "anchors": ["Utils.h:81-86 Text2Str", "Utils.cpp:324-341 Text2Str::str, operator<<", "Utils.cpp:112-115 operator<< of an ostringstream"]}
{"id": "C118", "title": "The text and the memory of a backtrace", "statement": "rn_backtrace gives the names of the up to 30 innermost functions, each after a space behind 'backtrace:'; while there is memory it does so for every stack that can be read, so 'backtrace failed' for such a stack means that memory ran out, and it is never the text of a backtrace. A call that gives the names has given back all its memory. Defects: each call in which memory runs out while the names are put together loses the block of backtrace_symbols for good, so n such calls lose n blocks; the call throws although everything is caught if there is no memory for the copy of the message; functions beyond the 30th are left out without a sign.", "quantifier": "every stack, every sequence of calls, every pattern of failing allocations", "why_tests_cant": "the paths where an allocation fails cannot be brought about by a test without replacing the allocator, and there is one for each function on the stack", "anchors": ["Utils.cpp:586-606 rn_backtrace"]}
{"id": "C119", "title": "ScopedLock in programs that return and throw", "statement": "In threads whose programs lock with ScopedLock only, with blocks nested in any way, loops, returns, throws and catches, a thread holds a mutex exactly as often as it is within a block with a ScopedLock of it, no two threads are within such blocks of one mutex at a time, and lockcnt() is the number of those blocks. A thread that is over, whether at its end, by a return or by an exception nobody caught, holds nothing; when all are over every mutex is free with lockcnt() 0. If all programs lock the mutexes in ascending order, apart from those the thread already has, there is no deadlock: while one thread is not over some thread can go on. Defects: with lock() and unlock() a throw or return leaves the mutex locked for ever; with different orders two threads can stop for ever; a ScopedLock can be copied, and then unlocks twice: two threads get within blocks of one mutex, and lockcnt() ends at -1.", "quantifier": "every number of threads and mutexes, every structured program, every schedule and every choice", "why_tests_cant": "there are unboundedly many ways out of nested blocks and schedules, and a lock that stays locked shows only in another thread", "anchors": ["Threads.h:164-175 ScopedLock", "Threads.cpp:159-189 Mutex::lock, unlock"]}
{"id": "C120", "title": "Life of an InterthreadQueue and of what is in it", "statement": "A program that uses queues only while they exist, copies none, destroys a queue only when no other one left is connected to it, and writes or deletes only elements that are its own (made or read, and not written or deleted since) never does anything undefined, destructors included. Every element in a queue or belonging to the program is there and is in one place only; without flushNoDelete() nothing else is there, so every element is deleted exactly once, by the program or by the clear() or destructor of the queue that has it, and when no queue is left only the program's own elements are. If each iqConnect() goes to an earlier queue, destroying in reverse order, as for local variables, is always allowed. Defects: once a queue is destroyed nothing can be called on those connected to it, not even the destructor, so of two local queues the first must not be connected to the second; copying a queue that is not empty, then destroying both, deletes the elements twice; an empty copy, too, uses the original's mutex and may not outlive it; flushNoDelete() leaks what no one else has.", "quantifier": "every program of any number of queues and elements that keeps these rules; the defects for every state of the queues", "why_tests_cant": "the uses after destruction are undefined and mostly go unnoticed in tests, and there are unboundedly many orders of connecting and destroying", "anchors": ["Interthread.h:113-132 InterthreadQueue, iqConnect", "Interthread.h:189-204 clear, flushNoDelete, ~InterthreadQueue"]}
{"id": "C121", "title": "Threads that use one datagram socket", "statement": "When any number of threads use one UDPSocket, every packet that arrived is read by exactly one of them or still waits, they are taken in the order of arrival, and each read returns the bytes of the packet it took, cut to 1500. The calls of a thread return one after the other. If only one thread reads, its read with a timeout is never held up once the time is over, whatever the others do, and its writeBack goes to the sender of the packet it read last; on a non-blocking socket reads are never held up, with any number of readers. If no other thread calls destination(), and without gethostbyname2_r no other code looks up names, write goes to the destination the thread set last (names not known left out), or else to that set at the start. Nothing is undefined but a writeBack before any thread has read a packet. Defects: of two threads that read with a timeout one can wait without limit, both having been told of the same packet; if two threads read, the answer of one can go to the client of the other, or to the address of one with the port of the other, where nobody sent from; a message written while another thread calls destination() can go to the new address with the old port; without gethostbyname2_r the result of the lookup is used after the mutex is released, so that destination() can take the address of a host another thread looks up.", "quantifier": "every number of threads, every program of reads, writes, sends, destinations and modes, every schedule, every sequence of arriving packets, both ways of looking up names", "why_tests_cant": "the interleavings of threads, arrivals and timeouts are unboundedly many, and the mixed addresses need a switch at one point", "anchors": ["Sockets.cpp:72-114 resolveAddress", "Sockets.cpp:127-135 nonblocking, blocking", "Sockets.cpp:153-240 write, writeBack, send, read", "Sockets.cpp:266-269 destination", "Sockets.h:60-65 mDestination, mSource"]}
{"id": "C122", "title": "The heap of a priority queue and elements that change", "statement": "In any program that writes only elements that exist, and does not write again, delete or give another priority to an element while it is queued, every call of an InterthreadPriorityQueue is defined and returns; readNoBlock returns an element no greater than any queued and takes out just that one, and NULL only if the queue is empty; peek shows what a read would return; reading until the queue is empty gives all its elements in ascending order; clear deletes exactly the elements queued, each once. In any program at all, what was written has been read or is queued, as often as it was written. Defects: NULL written to a queue that is not empty is dereferenced, and so is anything written to a queue with NULL alone; an element whose priority changes while it is queued can be returned before a smaller one; one deleted while queued is dereferenced by the next write; one written twice is deleted twice by clear; elements that compare equal do not come out in the order written (of four equal ones the third is read second).", "quantifier": "every sequence of calls and of changes to the elements, every number of elements, all priorities", "why_tests_cant": "the shapes of the heap are unboundedly many, and the order after a change of priority depends on where the element is in the heap", "anchors": ["Interthread.h:626-634 PointerCompare", "Interthread.h:642-732 InterthreadPriorityQueue"]}
{"id": "C123", "title": "Copies of socket objects, and descriptors used after they were closed", "statement": "Take any program that makes, copies, assigns, uses, closes and destroys socket objects, mixed with other code that opens, uses and closes files, in which every socket is closed or destroyed through at most one of the objects that stand for it, and in which no more than 1024 files are ever open at once. Then every call is defined; a call of an object, copy or not, goes to its own socket exactly as long as that socket has not been closed through any object; closing and destroying close the object's own socket; other code finds its files as it left them; and what is open is exactly the sockets not yet closed and the files of other code, each under one descriptor. Defects: sockets can be copied, and the destructor of a copy closes the descriptor of the original, whose packets then go to whatever socket is opened next, and whose destructor closes that socket or another's file; an object assigned to loses its socket, which can never be closed; a socket closed by one thread while another is between select and recvfrom in read with a timeout makes that read take a packet of the socket opened next; read with a timeout on a descriptor of 1024 or more writes beyond the end of its fd_set.", "quantifier": "every sequence of calls on any number of objects, copies and files of other code, any order of the calls of several threads", "why_tests_cant": "the reuse of descriptors depends on what the whole process opens and closes in between, and the overflow needs more than a thousand open files", "anchors": ["Sockets.h:59-139 DatagramSocket", "Sockets.cpp:127-146 nonblocking, blocking, close, destructor", "Sockets.cpp:206-240 read", "Sockets.cpp:247-270 UDPSocket"]}
{"id": "C124", "title": "Destroying a queue, map or semaphore when the last message has come", "statement": "Any number of writers write messages to an object of Interthread.h; one reader reads as many as are written (of a map the keys written, each once; a semaphore is posted at most once) and then destroys the object. With an InterthreadMap or a Semaphore, whatever the schedule, nothing undefined happens: when the object is destroyed all writers have returned from their calls, the reader got all that was written, and until then some thread can always go on. The same holds for the queues if the reader joins the writers before it destroys the queue. Defect: the write of InterthreadQueue, InterthreadQueueWithWait and InterthreadPriorityQueue signals after it has unlocked the mutex (on purpose, as the comment says), so a reader that has the last message and destroys the queue can be first, and the write then signals a condition variable that no longer exists.", "quantifier": "every number of writers and messages, every schedule, wake-ups without a signal included", "why_tests_cant": "the fault needs a switch between the unlock and the signal of the last write, a few instructions", "anchors": ["Interthread.h:296-321 write, write_front", "Interthread.h:415-422 write", "Interthread.h:455-481 ~InterthreadMap1, write", "Interthread.h:663-730 clear, destructor, write", "Interthread.h:752-764 post, get", "Threads.cpp:103-108 Mutex::~Mutex"]}
{"id": "C125", "title": "Connecting a queue that threads are using", "statement": "A.iqConnect(B) makes A use the mutex and the signal of B. If, while iqConnect runs, no other thread is in the middle of a read or write of A (calls on B may be under way, and both queues may have been used before), then whatever the schedule nothing undefined happens before or after: at most one thread at a time is in each queue, after the connection in both together; what was written to each queue is what was read from it, in the same order, and then what it still holds; and if one thread does all the reading it never sleeps before a queue that holds an element, unless a writer of it is about to wake it. Defects: iqConnect takes no mutex and does not look whether A is in use. Called while a thread sleeps in A.read, later writes to A signal elsewhere and the thread sleeps for ever with its element in the queue, or, woken, it waits with a mutex it does not hold, which is undefined; called in the middle of A.write, another thread gets into the same list under the new mutex. And connected queues share one signal, of which write wakes one waiter: with a reader on each queue it can wake the wrong one, and the right one sleeps for ever.", "quantifier": "every number of threads and calls, every schedule, wake-ups without a signal included", "why_tests_cant": "each fault needs iqConnect to run within a particular call of another thread, or a signal to choose the wrong waiter", "anchors": ["Interthread.h:129-132 iqConnect", "Interthread.h:246-255 read", "Interthread.h:296-311 write", "Threads.h:231-257 Signal"]}
{"id": "C126", "title": "A registered process, signals and its end", "statement": "A process registers itself with RegisterProgram (at most once) and files with RegisterFile, before and after, makes files and ends by exit; signals from 1 to 63 other than KILL come at any step after RegisterProgram has returned, outside RegisterFile and before gSelf is destroyed, also while other signals are handled or exit is under way. Then nothing undefined happens, and when the process is over, by exit or by a signal, its pid file and all files registered until then are gone. Without signals the pid file is there until exit begins. A signal that is caught and by default ends a process makes Exit run to its end, and then ends it. Files that were neither registered nor the pid file made by the process are never removed, whenever signals come, nor are those of another instance when the start is refused. Defects: a signal that by default does not end a process, such as SIGWINCH when the terminal is resized or SIGTSTP, removes the pid file and the registered files though the program goes on, so that a second instance can start; a signal after the destructor of gSelf and before that of gSigVec makes Exit walk a destroyed list; one within RegisterFile makes it walk a list that is half changed; a program that registers under two names leaves the first pid file behind, after which it cannot be started again under that name; files registered by a program that does not register itself are not removed.", "quantifier": "every program of registrations and files, every set of files at the start and every sequence of signals and steps", "why_tests_cant": "the faults need a signal at one step out of many, or end the process of the test", "anchors": ["SelfDetect.cpp:45-143 e, sigfcn, RegisterProgram, Exit, RegisterFile", "SelfDetect.h:33-45 constructor, destructor", "UnixSignal.cpp:40-53 _sigHandler", "UnixSignal.cpp:121-141 destructor, Register", "Variables.cpp:23-24 gSigVec, gSelf"]}
{"id": "C127", "title": "Log records of static objects", "statement": "A program has static objects whose constructors and destructors log, with LOG, with _LOG or through gLogInit. If the objects of Logger.cpp and gConfig are constructed before all static objects that log, and either no destructor of these uses LOG or gLogInit or the first of them uses one of the two in its constructor, then the program is defined to its end, and syslog is given exactly the records within the levels of their files: those of the constructors in their order, of main, and of the destructors in the reverse order; the alarms are those of priority CRIT or graver. Before sCheckloggerInitStatus is constructed, records of any priority made with _LOG are defined, reach syslog and are not kept as alarms, provided that no log file is open. Defects: the flag sLoggerInited, meant to make early records safe, does not cover the following, all undefined: a record of priority CRIT or graver after Logger.cpp's objects but before gConfig, as addAlarm asks gConfig; LOG of any priority before gConfig; a record of priority CRIT or graver in the destructor of an object constructed before Logger.cpp's, as the flag is never reset; LOG in the destructor of an object constructed before the first LOG, as the static variables of gGetLoggingLevel are destroyed before it; any record before Logger.cpp's objects once gLogInit has opened the log file, as gLogToLock is not guarded.", "quantifier": "every order of the static objects, all records of their constructors, main and destructors, all levels", "why_tests_cant": "the order of static objects of several files is chosen by the linker; a test sees one order, and the destructors run after it is over", "anchors": ["Logger.cpp:47-76 alarmsLock, alarmsList, sLoggerInited, gLogToLock", "Logger.cpp:141-178 gGetLoggingLevel", "Logger.cpp:198-205 addAlarm", "Logger.cpp:208-238 Log::~Log", "Logger.cpp:292-321 gLogInit", "Logger.h:56-77 _LOG, LOG"]}
{"id": "C128", "title": "A bit vector kept as text in the configuration", "statement": "A program packs a bit vector of any length with packToString, encodes it with encodeToString as hex, base16 or base64 and sets it as the value of a configuration key; later it reads the value with getStr, decodes it with decodeToString and unpacks it into a vector of the same length. Then it has the same bits and no error message, whatever other calls were made before and in between that do not write the key, with cache refreshes and time passing; and two vectors of one length with different bits have different texts. A text that denotes at least as many bytes as the vector needs is read in bounds and gives their first bits. Keys, values and descriptions are taken to be without the quotes that end them in SQL statements (C47). Defects: a value that was cut short is not noticed by decodeToString and unpack: if one byte is missing its bits silently become zeros, from the NUL behind the string, if more are missing unpack reads out of bounds; in the encoding binary, which encodeToString offers as well, a vector with a zero byte when packed, and no quote before it, cannot be set.", "quantifier": "every bit vector, every text, every key and every history of calls and of time", "why_tests_cant": "the fault depends on bytes of the vector; reading out of bounds need not be seen", "anchors": ["BitVector.cpp:378-406 packToString, unpack", "Utils.cpp:729-766 decodeToString, encodeToString", "Configuration.cpp:658-944 set, getStr"]}
{"id": "C129", "title": "Memory leak counters with threads", "statement": "Threads construct and destroy objects of classes that have a memory leak detector as an ancestor, in any interleaving of their single steps. At every moment mMemTotal of a class is the number of constructions counted so far and mMemNow that number less the destructions counted so far, none lost; when all threads are through they are the numbers of constructions, and of constructions less destructions, in the programs, whatever the interleaving. If only one thread destroys or labels such objects and none calls text(), nothing undefined happens, however many threads construct; and as long as a thread is not through some thread can go on. A run takes at most as many steps as the calls of the programs have, and all threads are through exactly when it has taken them, so none goes round for ever. Defects: mMemMap is not guarded by the mutex of the counters, and the destructor of every such object accesses it, labelled or not; so two threads that each destroy an object, of whatever classes, or one that labels with RN_MEMLOG and one that destroys, may be in the map at the same time, which is undefined; text() reads the counters without the mutex, while other threads change them.", "quantifier": "any number of threads and classes, all programs of constructions, destructions, labels and prints, every interleaving", "why_tests_cant": "the interleaving is up to the scheduler, and two threads in a map at the same time mostly go unnoticed", "anchors": ["MemoryLeak.h:62-72 MemStats", "MemoryLeak.h:82-87 MemLabel", "MemoryLeak.h:100-115 RN_MEMLOG, DEFINE_MEMORY_LEAK_DETECTOR_CLASS", "Utils.cpp:70-110 memChkLock, MemStats::text, memChkNew, memChkDel"]}
{"id": "C130", "title": "Memory leak counters of static objects", "statement": "Static objects of classes with a memory leak detector are constructed before main and destroyed after it, as are gMemStats and the mutex memChkLock of Utils.cpp, in an order that the language leaves open between files. If the objects of Utils.cpp are constructed first, nothing undefined happens, at the start of main mMemNow and mMemTotal of a class are the number of its static objects, and after all destructors mMemNow is the constructions less the destructions in main, so the static objects are not reported as leaks. This holds exactly then: one static object of such a class constructed before memChkLock makes the program undefined. Defect: even where the zeros of an unconstructed mutex work as a mutex, the constructor of gMemStats clears what was counted before it, so those objects are missing from the counters in main, and their destructors access mMemMap after it has been destroyed.", "quantifier": "any static objects before and after those of Utils.cpp, any number of classes, all programs of constructions and destructions in main", "why_tests_cant": "the order of construction between files is chosen by the linker, and use of zeros as a mutex or of a destroyed map mostly goes unnoticed", "anchors": ["Utils.cpp:70-79 gMemStats, memChkLock, MemStats::MemStats", "Utils.cpp:89-110 memChkNew, memChkDel", "MemoryLeak.h:62-72 MemStats", "MemoryLeak.h:82-87 MemLabel", "MemoryLeak.h:107-113 DEFINE_MEMORY_LEAK_DETECTOR_CLASS"]}

{"id": "C01", "title": "Unsigned integer formatting is exact, and fits exactly when there is room", "statement": "Convert::Int::ToString(Result, Size, Num, Radix, 0) returns true exactly when Size >= 2, 2 <= Radix <= 36 and the digit count of Num in that radix plus one is at most Size; on success the buffer starts with the canonical numeral of Num (digits 0-9A-Z, most significant first, no leading zeros, NUL terminated) and reading that numeral back in the radix gives Num. No byte outside Result[0..Size-1] is ever written.", "quantifier": "every 64-bit unsigned value, every radix (valid or not), every buffer size", "why_tests_cant": "2^64 values times all radices times all buffer sizes; the boundary between fits and does not fit moves with every value.", "anchors": ["convert/convert_int.cpp: Int::ToString(char*, size_t, uint64_t, size_t, char)"]}
{"id": "C02", "title": "Thousands separators group digits in threes from the right and change nothing else", "statement": "With a non-NUL separator, ToString succeeds exactly when digits + floor((digits-1)/3) + 1 <= Size; deleting the separators from the result gives the unseparated numeral, and separators stand exactly before every group of three digits counted from the right, never first or last.", "quantifier": "every 64-bit value, radix, separator character and buffer size", "why_tests_cant": "Grouping position depends on digit count modulo three and interacts with the buffer boundary for every value.", "anchors": ["convert/convert_int.cpp: Int::ToString(char*, size_t, uint64_t, size_t, char)"]}
{"id": "C03", "title": "Signed integer formatting is exact for every int64_t", "statement": "Int::ToString on a signed value yields '-' followed by the numeral of the magnitude for negative values and the plain numeral otherwise, fits exactly when there is room for sign, digits and terminator, and has defined behaviour for every int64_t, including the most negative one.", "quantifier": "every 64-bit signed value, radix, buffer size", "why_tests_cant": "The single failing value out of 2^64 (negation of INT64_MIN is undefined) is easily missed, and all others need a proof.", "anchors": ["convert/convert_int.cpp: Int::ToString(char*, size_t, int64_t, size_t, char)"]}
{"id": "C04", "title": "File-size formatting shows the truncated quotient by the unit", "statement": "ToFilesizeString(Num, NumFrac) picks the unit by the documented thresholds and shows floor(Num * 10^NumFrac / unit) with the decimal point NumFrac digits from the right.", "quantifier": "every 64-bit size, every number of fraction digits and every buffer that fits", "why_tests_cant": "The scaling multiplies a remainder by 10^NumFrac in 64-bit arithmetic; only a quantified argument finds the exact region where this wraps.", "anchors": ["convert/convert_int.cpp: Int::ToFilesizeString(char*, size_t, uint64_t, size_t, ...)"]}
{"id": "C05", "title": "The JSON serializer never writes outside the buffer it was given", "statement": "For any sequence of serializer calls on a buffer of positive size whose strings are passed NUL-terminated, every byte written lies inside the buffer, and the reported length never exceeds the buffer size minus one.", "quantifier": "all sequences of Start/End/Append/Finish/Reset/SetBuffer calls, all string contents, all buffer sizes and contents", "why_tests_cant": "The space check of each call is separate arithmetic from the bytes written; agreement must hold for every state and argument.", "anchors": ["json/json_serializer.cpp: Serializer::StartObject, EndObject, StartArray, EndArray, StartStr, EndStr, AppendNull, AppendBool, AppendInt, AppendUInt, AppendDouble, AppendStr, Append, Finish, CalculateStrSize, InternalAppendStr"]}
{"id": "C06", "title": "A JSON serializer call that reports failure leaves the document unchanged", "statement": "If any Start/End/Append call returns false, the reported length, the bytes of the document so far, the open-scope structure and the pending comma are what they were before the call, so the caller may flush the buffer and retry.", "quantifier": "all reachable serializer states, all calls and arguments", "why_tests_cant": "Retry-after-failure depends on no partial write having happened in any failing branch of any call in any state.", "anchors": ["json/json_serializer.cpp: Serializer::* , InternalAppendNextPrefix"]}
{"id": "C07", "title": "Everything the serializer emits is a well-formed JSON document describing the calls made", "statement": "For every accepted sequence of calls (objects, arrays, numbers, booleans, null, strings without control characters other than the five named escapes) followed by Finish, the concatenation of all flushed buffer chunks is a text of the JSON grammar whose value tree is the one described by the calls, including nesting, key order and values.", "quantifier": "all call sequences, all nesting, all flush points", "why_tests_cant": "Infinitely many call sequences and flush points; comma and colon placement depends on the whole history.", "anchors": ["json/json_serializer.cpp: Serializer (whole class)"]}
{"id": "C08", "title": "JSON string escaping round-trips", "statement": "For every NUL-terminated string, decoding the JSON string literal the serializer emitted (by the JSON escape rules) gives back the bytes that were passed in.", "quantifier": "all byte strings, both settings of slash escaping", "why_tests_cant": "All strings; the failing class ('/' is dropped by default) is one byte value under one setting.", "anchors": ["json/json_serializer.cpp: InternalAppendStr, CalculateStrSize"]}
{"id": "C09", "title": "The JSON serializer enforces structure", "statement": "A key is required exactly when the innermost open scope is an object and refused otherwise; only one root value is accepted; EndObject/EndArray/EndStr succeed only when the innermost open scope is of that kind and a matching Start was accepted; nesting never exceeds the MaxDepth given.", "quantifier": "all call sequences and all MaxDepth >= 1", "why_tests_cant": "Structure is a property of unbounded histories.", "anchors": ["json/json_serializer.cpp: StartObject, EndObject, StartArray, EndArray, StartStr, EndStr, InternalAppendNextPrefix"]}
{"id": "C10", "title": "Finish closes every open scope and terminates the text", "statement": "From any reachable state Finish succeeds exactly when there is one byte of room per open scope; it then closes all open scopes in the correct order, leaves the serializer at depth zero and, if anything was open, NUL terminates the text inside the buffer. When it returns false it has filled the buffer with a prefix of the closing text and can be called again after flushing.", "quantifier": "all reachable serializer states and remaining buffer space", "why_tests_cant": "Quantifies over all histories and all amounts of remaining space.", "anchors": ["json/json_serializer.cpp: Finish"]}
{"id": "C11", "title": "UTF-8 conversion respects the destination size and its counting pass", "statement": "ConvertToUTF8 with a destination writes at most the destination size; with a NULL destination it returns exactly the number of bytes that the writing pass produces given at least that much room.", "quantifier": "all inputs of all three element widths, all destination sizes", "why_tests_cant": "Two-pass sizing is only safe if both passes agree for every input.", "anchors": ["utf8/utf8_util.cpp: Util::ConvertToUTF8, AppendUTF8CodePoint"]}
{"id": "C12", "title": "ConvertToUTF8 output is always well-formed, shortest-form UTF-8", "statement": "Whatever bytes, 16-bit units or 32-bit values are supplied, the output is a sequence of shortest-form UTF-8 encodings of code points that exclude surrogates, noncharacters and values above U+10FFFF.", "quantifier": "all inputs including ill-formed ones, all destination sizes", "why_tests_cant": "Ill-formed input space is unbounded (truncated sequences, overlong forms, stray continuation bytes in any combination).", "anchors": ["utf8/utf8_util.cpp: ConvertToUTF8, AppendUTF8CodePoint"]}
{"id": "C13", "title": "Well-formed text passes through ConvertToUTF8 unchanged; conversion is idempotent", "statement": "For input already consisting of shortest-form UTF-8 of allowed code points not starting with a combining mark, the output equals the input; and converting any output again gives it back unchanged.", "quantifier": "all well-formed inputs; all inputs for idempotence", "why_tests_cant": "Identity over an infinite language.", "anchors": ["utf8/utf8_util.cpp: ConvertToUTF8, AppendUTF8CodePoint"]}
{"id": "C14", "title": "UTF-16 and UTF-32 text round-trips through UTF-8", "statement": "For every sequence of allowed code points not starting with a combining mark, encoding it as UTF-16 or UTF-32, converting to UTF-8 and back with ConvertFromUTF8 into a large enough buffer yields the original units.", "quantifier": "all allowed code point sequences", "why_tests_cant": "Composition of two converters over all code point sequences including all surrogate pairs.", "anchors": ["utf8/utf8_util.cpp: ConvertToUTF8, ConvertFromUTF8, AppendUTFCodePoint"]}
{"id": "C15", "title": "ConvertFromUTF8 never overruns and decodes a maximal prefix", "statement": "ConvertFromUTF8 into a buffer of n units writes at most n units and produces exactly the encodings of the longest prefix of code points of the input which decodes and fits.", "quantifier": "all inputs, all destination sizes, widths 8/16/32", "why_tests_cant": "All malformed inputs and all capacities.", "anchors": ["utf8/utf8_util.cpp: ConvertFromUTF8, AppendUTFCodePoint"]}
{"id": "C16", "title": "UTF-8 length, search and iteration helpers terminate", "statement": "Util::strlen, FindCodePoint, NextASCIICodePoint and NextCodePoint return for every byte string.", "quantifier": "all byte strings and start positions", "why_tests_cant": "Termination for all inputs is not testable.", "anchors": ["utf8/utf8_util.cpp: Util::strlen, NextCodePoint, FindCodePoint, NextASCIICodePoint"]}
{"id": "C17", "title": "IsCombiningCodePoint recognises exactly the four combining blocks", "statement": "IsCombiningCodePoint(cp) is true exactly for U+0300-036F, U+1DC0-1DFF, U+20D0-20FF, U+FE20-FE2F, and a converted text never starts with such a code point.", "quantifier": "all 32-bit values; all inputs to the converter", "why_tests_cant": "All 2^32 values and all inputs.", "anchors": ["utf8/utf8_util.cpp: IsCombiningCodePoint, ConvertToUTF8"]}
{"id": "C18", "title": "The detachable list is a sequence", "statement": "After any sequence of list calls that obey the documented rule (only detached nodes are inserted, positions belong to the list), walking First/Next visits exactly the nodes of the abstract sequence, walking Last/Prev visits them in reverse, GetSize is its length, and every detached node has no neighbours.", "quantifier": "all call sequences and all lists", "why_tests_cant": "Pointer surgery must be right in every position of every list.", "anchors": ["templates/detachable_list_util.h: InsertBefore, InsertAfter, Detach, Push, Pop, Shift, Unshift, Remove, Empty"]}
{"id": "C19", "title": "The detachable queue is a sequence", "statement": "After any sequence of Push/Unshift/Shift calls with detached nodes, the queue holds exactly the abstract sequence: Shift returns nodes in order, NULL exactly when empty, GetSize is the length, Last is the final node.", "quantifier": "all call sequences", "why_tests_cant": "FirstNode/LastNode/NumNodes consistency over all histories.", "anchors": ["templates/detachable_queue_util.h: Push, Unshift, Shift, Empty"]}
{"id": "C20", "title": "DetachAllAndAppend concatenates", "statement": "For two distinct lists (or queues), a.DetachAllAndAppend(b) leaves a holding the old a followed by the old b and b empty, with correct sizes and back links; list and queue copies hold equal value sequences in fresh nodes.", "quantifier": "all pairs of lists/queues", "why_tests_cant": "All shapes including empty ones.", "anchors": ["templates/detachable_list_util.h: DetachAllAndAppend, copy constructor, operator=", "templates/detachable_queue_util.h: DetachAllAndAppend, copy constructor, operator="]}
{"id": "C21", "title": "The ordered hash is an insertion-ordered map with unique keys", "statement": "After any sequence of Push/Unshift/InsertBefore/InsertAfter/Detach calls: Find(key) returns the node holding that key if one is attached and NULL otherwise; an insertion of a key already present returns NULL and changes nothing; list order is the order given by the insertions; GetListSize is the number of nodes.", "quantifier": "all call sequences, all integer and string keys, every hash function (all collision patterns)", "why_tests_cant": "Correctness under arbitrary collisions and automatic growth over all histories.", "anchors": ["templates/detachable_ordered_hash_util.h: InsertBefore, InsertAfter, Detach, Find, ResizeHash"]}
{"id": "C22", "title": "Resizing the ordered hash loses nothing", "statement": "ResizeHash to any nonzero size, called explicitly or by automatic growth, leaves the key set, all lookups, the list order and size unchanged, and every chain then holds exactly the nodes whose hash maps there; size zero is refused.", "quantifier": "all hash states, all new sizes", "why_tests_cant": "All contents and sizes.", "anchors": ["templates/detachable_ordered_hash_util.h: ResizeHash"]}
{"id": "C23", "title": "A copied ordered hash behaves like the original", "statement": "After copy construction or assignment, every lookup in the copy finds the clone of the entry the lookup in the original finds.", "quantifier": "all hash contents", "why_tests_cant": "Copies are only exercised by tests through iteration; the lookup path is broken for every nonempty hash.", "anchors": ["templates/detachable_ordered_hash_util.h: OrderedHash(const OrderedHash&), operator="]}
{"id": "C24", "title": "Empty(false) leaves all nodes re-insertable", "statement": "After Empty(false) every former node can be inserted into a hash again and the resulting structure is a correct ordered hash.", "quantifier": "all hash contents and later insertion sequences", "why_tests_cant": "Stale list links only matter for particular later insertion orders.", "anchors": ["templates/detachable_ordered_hash_util.h: Empty, InsertBefore, InsertAfter"]}
{"id": "C25", "title": "The packed ordered hash is an insertion-ordered map", "statement": "After any sequence of Set/Unset/Optimize/ResizeHash calls (fewer than 2^30 slots), Find(key) gives the value most recently set for the key and fails for unset keys, setting an existing key keeps its place, iteration order is first-insertion order, GetSize is the number of keys.", "quantifier": "all call sequences, all integer and string keys, every hash function", "why_tests_cant": "Index chains in packed arrays under growth, compaction and collisions over all histories.", "anchors": ["templates/packed_ordered_hash_util.h: Set, Unset, Find, InternalFind, AutoResizeHash, ResizeHash"]}
{"id": "C26", "title": "Optimize compacts without changing the map", "statement": "Optimize removes all gaps: afterwards GetNextPos equals GetSize, the iteration sequence of keys and values is unchanged and all lookups give the same values.", "quantifier": "all reachable packed hashes", "why_tests_cant": "In-place relocation of chained nodes for every gap pattern.", "anchors": ["templates/packed_ordered_hash_util.h: Optimize"]}
{"id": "C27", "title": "Packed hash iteration visits each entry once in order, both ways", "statement": "Starting from GetNextPos, repeated Next visits every set position in increasing order and then returns NULL with Pos = GetNextPos; repeated Prev visits the same in decreasing order and then returns NULL.", "quantifier": "all reachable packed hashes", "why_tests_cant": "All gap patterns.", "anchors": ["templates/packed_ordered_hash_util.h: Next, Prev, Get"]}
{"id": "C28", "title": "Copying a packed hash is memory safe and gives an equal map", "statement": "Copy construction of any packed hash reads only the source's nodes and produces a hash with the same entries.", "quantifier": "all packed hashes", "why_tests_cant": "The loop bound uses the wrong array; its effect depends on heap layout and is undefined for nonempty hashes.", "anchors": ["templates/packed_ordered_hash_util.h: PackedOrderedHash(const PackedOrderedHash&)"]}
{"id": "C29", "title": "The cache returns only what was stored under exactly that key", "statement": "Find(key) returns the value most recently inserted under exactly that key and not removed since; an insertion can only evict entries whose key falls in the same slot; nothing is ever returned for a key never inserted.", "quantifier": "all histories of Insert/Remove/Empty/Find, all key hash functions, all table sizes >= 1", "why_tests_cant": "All histories and collision patterns.", "anchors": ["templates/cache_util.h: Insert, Remove, Exists, Find, Empty"]}
{"id": "C30", "title": "Static vectors are values", "statement": "Construction, copy, assignment (including to itself), element writes and destruction behave as operations on mathematical sequences: other vectors never change, equality is element-wise, nothing is leaked or used after its end.", "quantifier": "all vectors and operation sequences", "why_tests_cant": "All sizes and contents.", "anchors": ["templates/static_vector.h: StaticVector"]}
{"id": "C31", "title": "Two-dimensional arrays can be assigned", "statement": "Assigning one two-dimensional array to another of any dimensions yields an equal array with defined behaviour.", "quantifier": "all pairs of arrays with any dimensions", "why_tests_cant": "Same-size assignment works, different nonzero sizes dereference NULL.", "anchors": ["templates/static_2d_array.h: Static2DArray::operator="]}
{"id": "C32", "title": "StaticMixedVar strings stay terminated and inside their buffer", "statement": "For any sequence of string operations on a StaticMixedVar with a buffer of N >= 1 bytes, the stored length stays at most N-1, the byte at that length is NUL, and no byte outside the buffer is touched.", "quantifier": "all operation sequences, all N, all argument strings", "why_tests_cant": "Invariant over all histories; each operation has its own truncation arithmetic.", "anchors": ["templates/static_mixed_var.h: SetStr, SetData, PrependStr, PrependData, AppendStr, AppendData, AppendChar, AppendMissingChar, RemoveTrailingChar, SetSize"]}
{"id": "C33", "title": "StaticMixedVar string operations compute what they say", "statement": "Set stores the longest fitting prefix, Append appends the longest fitting prefix, Prepend prepends when it fits entirely and otherwise changes nothing, RemoveTrailingChar removes the last character exactly when it is the given one and says whether it did, and AppendInt/AppendUInt append the canonical numeral for every 64-bit value.", "quantifier": "all states and arguments", "why_tests_cant": "All strings, lengths and capacities.", "anchors": ["templates/static_mixed_var.h"]}
{"id": "C34", "title": "The keyed hash is SipHash-c-d and the simple hash is its documented recurrence", "statement": "GetSipHashKey equals the published SipHash algorithm for every message, key and round count on a little-endian machine; GetDJBX33XHashKey equals the word-wise x33-xor recurrence.", "quantifier": "all messages, keys and round counts", "why_tests_cant": "Test vectors cover a handful of the infinite message space and cannot cover all lengths.", "anchors": ["templates/detachable_ordered_hash.cpp: GetSipHashKey, GetDJBX33XHashKey", "templates/packed_ordered_hash.cpp", "templates/cache.cpp: CacheUtil::GetHashKey"]}
{"id": "C35", "title": "Random integers lie in the requested range", "statement": "If GetInteger returns true, the result lies between the smaller and the larger of the two bounds inclusive, for every pair of 64-bit bounds and every stream of random bytes.", "quantifier": "all bounds, all random streams", "why_tests_cant": "All 2^128 bound pairs times all byte streams.", "anchors": ["security/security_csprng.cpp: CSPRNG::GetInteger"]}
{"id": "C36", "title": "Random integers are unbiased", "statement": "For every pair of bounds, each value of the range is produced by exactly the same number of 64-bit draws, every other draw is rejected and retried, and more than half of the draws are accepted.", "quantifier": "all bounds", "why_tests_cant": "Exact equality of preimage counts over 2^64 draws for every range cannot be sampled.", "anchors": ["security/security_csprng.cpp: CSPRNG::GetInteger"]}
{"id": "C37", "title": "FastFind finds exactly the occurrences", "statement": "FindNext returns the position of the next occurrence of the pattern at or after the current position and fails exactly when there is none, for every pattern and data, and never reads outside the data.", "quantifier": "all patterns, data and search histories", "why_tests_cant": "The skip table and filter bytes are precomputed per pattern; a wrong skip only shows on specific pattern/data pairs.", "anchors": ["templates/fast_find_replace_util.h: FastFind::SetPattern, FindNext, SkipMatch"]}
{"id": "C38", "title": "ReplaceAll replaces and keeps everything else", "statement": "ReplaceAll gives the data with the leftmost non-overlapping occurrences (at most Limit of them, if a limit is given) replaced and all other data kept, including the tail.", "quantifier": "all patterns, replacements, data and limits", "why_tests_cant": "All inputs; the failing inputs have more matches than the limit.", "anchors": ["templates/fast_find_replace_util.h: FastReplace::ReplaceAll, Replace, FindNext"]}
{"id": "C39", "title": "Replacement buffers grow without reading outside the old buffer", "statement": "During replacement every copy reads only inside its source buffer.", "quantifier": "all data, patterns, replacements, growth sizes", "why_tests_cant": "The out-of-bounds read happens silently and only for particular growth arithmetic.", "anchors": ["templates/fast_find_replace_util.h: FastReplace::FindNext"]}
{"id": "C40", "title": "The mutex excludes", "statement": "At no time do two threads both hold the mutex: for every interleaving of Lock and Unlock calls by any number of threads, at most one thread is between a successful Lock and its matching Unlock.", "quantifier": "all interleavings of all programs of any number of threads", "why_tests_cant": "Interleavings cannot be enumerated.", "anchors": ["sync/sync_mutex.cpp: Mutex::Lock, Mutex::Unlock", "sync/sync_util.cpp: WaitForUnixSemaphore, ReleaseUnixSemaphore"]}
{"id": "C41", "title": "The mutex is recursive and only its owner can unlock it", "statement": "An owner that locked n times still holds the mutex until it has unlocked n times (or once with UnlockAll); Unlock by a thread that does not hold it returns false and changes nothing.", "quantifier": "all interleavings, recursion depths below 2^32", "why_tests_cant": "All interleavings and depths.", "anchors": ["sync/sync_mutex.cpp: Mutex::Lock, Mutex::Unlock"]}
{"id": "C42", "title": "The semaphore's count stays within its limits and grants are bounded by releases", "statement": "In every interleaving the count stays between 0 and the maximum, and successful waits never exceed the initial count plus the number of effective releases.", "quantifier": "all interleavings of Wait/TryWait/timed Wait/Release", "why_tests_cant": "All interleavings.", "anchors": ["sync/sync_util.cpp: InitUnixSemaphore, WaitForUnixSemaphore, ReleaseUnixSemaphore"]}
{"id": "C43", "title": "The semaphore loses no wakeup", "statement": "Whenever the count is positive and nobody holds the internal lock, no thread is left asleep without a pending wakeup: every sleeper either has been woken or the count is zero net of woken threads.", "quantifier": "all interleavings including timeouts", "why_tests_cant": "Lost wakeups are schedule-dependent.", "anchors": ["sync/sync_util.cpp: WaitForUnixSemaphore, ReleaseUnixSemaphore"]}
{"id": "C44", "title": "An automatic event releases at most one waiter per Fire, and does release one", "statement": "(a) In every interleaving the number of waits satisfied never exceeds the number of Fire calls plus the initial state; (b) a fired automatic event is consumed by a waiter if one is waiting forever.", "quantifier": "all interleavings of Wait, timed Wait, Fire, Reset", "why_tests_cant": "(b) fails only on one narrow interleaving with a timeout.", "anchors": ["sync/sync_util.cpp: InitUnixEvent, WaitForUnixEvent, FireUnixEvent, ResetUnixEvent"]}
{"id": "C45", "title": "The reader-writer lock excludes", "statement": "If every unlock is made by a current holder, then in every interleaving no writer holds together with a reader or another writer, and any number of readers may hold together.", "quantifier": "all interleavings of disciplined lock/unlock calls, including timeouts and failures", "why_tests_cant": "All interleavings.", "anchors": ["sync/sync_readwritelock.cpp: ReadLock, WriteLock, ReadUnlock, WriteUnlock"]}
{"id": "C46", "title": "A named object is used only after it is initialised", "statement": "Of all processes opening the same named object, exactly one initialises it, and no other returns from opening before that initialisation is complete.", "quantifier": "all interleavings of opens and closes by any number of processes, including re-creation after the last close", "why_tests_cant": "Race windows between processes.", "anchors": ["sync/sync_util.cpp: InitUnixNamedMem, UnixNamedMemReady, UnmapUnixNamedMem"]}
{"id": "C47", "title": "Shared-object names are safe and distinct", "statement": "For every prefix and name the generated name is NUL-terminated inside its 255 bytes, begins with its only slash, and two different short names (up to slash replacement) or prefixes give different objects.", "quantifier": "all prefixes, names and sizes", "why_tests_cant": "All names of all lengths.", "anchors": ["sync/sync_util.cpp: InitUnixNamedMem"]}
{"id": "C48", "title": "The thread-local allocator gives disjoint, large-enough blocks", "statement": "malloc(n) returns a block of at least n usable bytes that overlaps no other live block, for every history of malloc/realloc/free; freed blocks are reused only after being freed.", "quantifier": "all histories and sizes", "why_tests_cant": "All histories.", "anchors": ["sync/sync_tls.cpp: TLS::malloc, realloc, free, NormalizeBitPosition"]}
{"id": "C49", "title": "realloc and dup_malloc keep the contents", "statement": "After realloc the first min(old, new) bytes are unchanged; dup_malloc gives a block with the same contents as the block duplicated, for its whole requested size.", "quantifier": "all histories and sizes", "why_tests_cant": "The stale size byte only shows after a specific history (grow twice above the cached sizes and then duplicate).", "anchors": ["sync/sync_tls.cpp: TLS::realloc, TLS::dup_malloc"]}
{"id": "C50", "title": "TLS MixedVar is an unbounded string", "statement": "Set/Prepend/Append/AppendChar/SetSize on the thread-local MixedVar give exactly the concatenations, for all lengths, with the terminator in place.", "quantifier": "all operation sequences", "why_tests_cant": "All histories.", "anchors": ["sync/sync_tls.cpp: MixedVar"]}
{"id": "C51", "title": "Storage-directory helpers stay inside the caller's buffer", "statement": "GetTempStorageDir, GetCurrentUserAppStorageDir, GetSystemAppStorageDir and GetExecutablePath never write outside Buffer[0..BufferSize-1] whatever the environment holds.", "quantifier": "all buffer sizes, environments and application names", "why_tests_cant": "Off-by-one at exactly one buffer size per environment value.", "anchors": ["utf8/utf8_appinfo.cpp: GetTempStorageDir, GetCurrentUserAppStorageDir, GetNIXStorageDir, GetExecutablePath"]}
{"id": "C52", "title": "Calling an exported function through the shared-library wrapper calls it", "statement": "If the module loads and exports the function, Call, CallVoid and CallOnce call it and return true; the library is searched at most once.", "quantifier": "all load outcomes and call histories", "why_tests_cant": "History-dependent caching.", "anchors": ["templates/shared_lib.h: FunctionUtil", "templates/shared_lib_util.h: Call, CallVoid, CallOnce"]}
{"id": "C53", "title": "File positions stay inside the file bounds", "statement": "After any sequence of Seek/Read/Write on an opened file the current position stays between 0 and the maximum position, Read returns at most the remaining bytes, and Seek clamps to the file.", "quantifier": "all operation sequences and offsets", "why_tests_cant": "All offsets including extreme ones.", "anchors": ["utf8/utf8_file_dir.cpp: File::Seek, Read, Write, UpdateMaxPos"]}
{"id": "C54", "title": "Copy produces an identical file", "statement": "If File::Copy returns true, the destination has exactly the bytes of the source.", "quantifier": "all file contents and lengths", "why_tests_cant": "Only lengths that are not a multiple of 8192 fail; trailing bytes are whatever was in the buffer.", "anchors": ["utf8/utf8_file_dir.cpp: File::Copy"]}
{"id": "C55", "title": "Write writes each byte once in order", "statement": "For every pattern of short writes and interruptions, the bytes reaching the file are a prefix of the data, in order, and DataWritten is that prefix's length.", "quantifier": "all data and all sequences of results of write(2), including EINTR", "why_tests_cant": "System call interruption patterns.", "anchors": ["utf8/utf8_file_dir.cpp: File::Write"]}
{"id": "C56", "title": "LineInput splits text into lines for every chunking", "statement": "Successive LineInput calls return the lines of the file split at LF, CRLF or CR with NUL shown as space, independent of how the data is split into reads and of the size hint (>= 1).", "quantifier": "all file contents, chunkings and size hints", "why_tests_cant": "CR at a chunk boundary; growth boundary.", "anchors": ["utf8/utf8_file_dir.cpp: File::LineInput"]}
{"id": "C57", "title": "GetAbsoluteFilename normalises", "statement": "For every absolute or relative filename, a successful result is absolute, contains no empty, '.' or '..' component, fits the buffer, and denotes the path obtained by resolving components left to right (never above the root).", "quantifier": "all current directories, filenames and buffer sizes", "why_tests_cant": "All component sequences.", "anchors": ["utf8/utf8_file_dir.cpp: File::GetAbsoluteFilename"]}
{"id": "C58", "title": "Valid UTF-8 file names survive GetPlatformFilename", "statement": "A file name in well-formed UTF-8 without control or wildcard characters is accepted by GetPlatformFilename whenever it fits, and only backslashes change, into slashes; names with control or wildcard characters are refused.", "quantifier": "all file names", "why_tests_cant": "Sign of char for all bytes >= 0x80.", "anchors": ["utf8/utf8_file_dir.cpp: File::GetPlatformFilename"]}
{"id": "C59", "title": "Recursive Rmdir removes exactly the subtree", "statement": "Rmdir with recursion removes the directory and everything beneath it, and nothing else: symbolic links are removed, not followed.", "quantifier": "all file trees", "why_tests_cant": "All tree shapes and link targets.", "anchors": ["utf8/utf8_file_dir.cpp: Dir::Rmdir, Rmdir_RecurseInternal"]}
{"id": "C60", "title": "StaticReplaceAll is a bounded replace-all", "statement": "StaticReplaceAll writes at most the destination size and produces the replaced text when it fits.", "quantifier": "all data, patterns, replacements and sizes", "why_tests_cant": "All inputs.", "anchors": ["templates/fast_find_replace_util.h: StaticReplaceAll"]}
{"id": "C61", "title": "Appending UTF-8 text to a UTF8MixedVar keeps it whole when it fits", "statement": "UTF8MixedVar::AppendUTF8 of any text whose converted form fits the remaining buffer appends all of it.", "quantifier": "all texts and states", "why_tests_cant": "Only multibyte text is cut.", "anchors": ["utf8/utf8_mixed_var.h: SetUTF8, AppendUTF8"]}
{"id": "C62", "title": "Reading random bytes terminates or reports failure", "statement": "GetBytes returns true with all bytes filled, or returns false, for every behaviour of the random device.", "quantifier": "all sequences of read(2) results", "why_tests_cant": "A device that keeps failing makes the loop spin forever; no finite test shows this.", "anchors": ["security/security_csprng.cpp: CSPRNG::GetBytes"]}
{"id": "C63", "title": "LastPos tells how much of the source produced the output", "statement": "After ConvertToUTF8 with a LastPos pointer, converting only the first *LastPos units of the source again yields the same output, so a caller can resume after a full buffer.", "quantifier": "all sources, widths and buffer sizes", "why_tests_cant": "Depends on the byte lengths of all the sequences in the source; text with one- and two-byte sequences behaves, longer ones do not.", "anchors": ["utf8/utf8_util.cpp: Util::ConvertToUTF8"]}
{"id": "C64", "title": "A hash can be constructed with any estimated size", "statement": "A newly constructed ordered hash accepts lookups and insertions, whatever EstimatedSize was passed.", "quantifier": "all estimated sizes, hash functions and keys", "why_tests_cant": "Only one value of the size, zero, fails; the failure is a division by zero at the first later call.", "anchors": ["templates/detachable_ordered_hash_util.h: OrderedHash(size_t, ...), ResizeHash, Find"]}
{"id": "C65", "title": "Setting a UTF8MixedVar from wide text stores well-formed UTF-8", "statement": "UTF8MixedVar::SetUTF8 stores the whole UTF-8 form of the text when it fits with its terminator, and otherwise a well-formed part of it.", "quantifier": "all texts, buffer sizes and previous contents", "why_tests_cant": "Only texts whose UTF-8 form fills the buffer to the last byte are cut inside a character.", "anchors": ["utf8/utf8_mixed_var.h: SetUTF8"]}
{"id": "C66", "title": "Storage-directory helpers deliver the directory whenever it fits", "statement": "Whenever the documented directory and its terminator fit into the buffer, GetTempStorageDir, GetSystemAppStorageDir and GetCurrentUserAppStorageDir return true with exactly that text, ending in a separator, and its size; otherwise they return false with size 0.", "quantifier": "all buffer sizes, home directories and application names", "why_tests_cant": "Depends on the exact size of the buffer.", "anchors": ["utf8/utf8_appinfo.cpp: GetNIXStorageDir, GetTempStorageDir, GetSystemAppStorageDir, GetCurrentUserAppStorageDir"]}
{"id": "C67", "title": "GetExecutableFilename reports the running executable or fails", "statement": "If GetExecutableFilename returns true the buffer holds the resolved name of the executable's link, and GetExecutablePath its directory.", "quantifier": "all buffer sizes, link contents and file systems", "why_tests_cant": "The wrong answer needs a buffer shorter than the link and a file with the cut name.", "anchors": ["utf8/utf8_appinfo.cpp: GetExecutableFilename, GetExecutablePath"]}
{"id": "C68", "title": "The thread-local allocator reports lack of memory with NULL", "statement": "When the system has no memory, malloc, realloc and dup_malloc return NULL and change nothing.", "quantifier": "all histories, sizes and patterns of failures", "why_tests_cant": "Needs the system allocator to fail at a chosen moment.", "anchors": ["sync/sync_tls.cpp: TLS::malloc, realloc, dup_malloc"]}
{"id": "C69", "title": "The position of a file is where the next transfer happens", "statement": "After every Write, successful or not, the next Read or Write takes place at the position the object reports.", "quantifier": "all histories, data and results of write(2)", "why_tests_cant": "Needs a write that fails after some bytes.", "anchors": ["utf8/utf8_file_dir.cpp: File::Write, Read"]}
{"id": "C70", "title": "A failed Open leaves the object closed", "statement": "Whenever File::Open returns false, the object has no file open and cannot be read or written.", "quantifier": "all access modes, sharing modes and outcomes of open(2) and flock(2)", "why_tests_cant": "Only a refused lock leaves the file open.", "anchors": ["utf8/utf8_file_dir.cpp: File::Open"]}
{"id": "C71", "title": "Moving a file never loses its contents", "statement": "If File::Move returns true, the destination has exactly the bytes the source had.", "quantifier": "all contents, whether or not rename(2) works, all results of write(2)", "why_tests_cant": "Data loss needs another file system and a failing write.", "anchors": ["utf8/utf8_file_dir.cpp: File::Move, Copy"]}
{"id": "C72", "title": "GetPlatformFilenameInfo finds the parts of a name", "statement": "For every string the reported positions are those of the part after the last slash, of its first dot and of its last dot (the end of the string if there is none).", "quantifier": "all strings", "why_tests_cant": "All positions of slashes and dots.", "anchors": ["utf8/utf8_file_dir.cpp: File::GetPlatformFilenameInfo"]}
{"id": "C73", "title": "GetAbsoluteFilename stays inside its buffers", "statement": "For every name, base directory, current directory and result size, GetAbsoluteFilename accesses only its buffers, and a successful result is terminated within the result buffer.", "quantifier": "all names, directories, sizes and previous contents of the stack", "why_tests_cant": "The failure depends on what earlier calls left on the stack.", "anchors": ["utf8/utf8_file_dir.cpp: File::GetAbsoluteFilename"]}
{"id": "C74", "title": "LoadEntireFile delivers the whole file or fails", "statement": "If LoadEntireFile returns true, the block holds exactly the bytes of the file and BytesRead is their number.", "quantifier": "all files and all results of open(2), flock(2) and read(2)", "why_tests_cant": "A short read(2) cannot be produced at will.", "anchors": ["utf8/utf8_file_dir.cpp: File::LoadEntireFile"]}
{"id": "C75", "title": "Recursive Mkdir creates exactly the missing directories", "statement": "A recursive Mkdir creates every missing directory on the path it is given, nothing else, leaves everything that exists alone, and returns true exactly if the last directory did not exist.", "quantifier": "all file trees and all names", "why_tests_cant": "All trees and paths; tests try a few.", "anchors": ["utf8/utf8_file_dir.cpp: Dir::Mkdir"]}
{"id": "C76", "title": "Readlink gives a terminated string", "statement": "If Readlink returns true, the buffer holds the target of the link as a terminated string.", "quantifier": "all targets, buffer sizes and previous contents of the buffer", "why_tests_cant": "Depends on what the buffer held before; fresh memory is often zero.", "anchors": ["utf8/utf8_file_dir.cpp: File::Readlink"]}
{"id": "C77", "title": "Dir::Read visits every entry", "statement": "Calling Read until it returns false delivers every entry of the directory once, and never writes outside the buffer.", "quantifier": "all directories and all buffer sizes", "why_tests_cant": "All name lengths against all sizes.", "anchors": ["utf8/utf8_file_dir.cpp: Dir::Read"]}
{"id": "C78", "title": "A returning semaphore call leaves the internal lock free", "statement": "When Lock or Unlock of a semaphore has returned, whatever it returned, the calling thread does not keep the lock that protects the count.", "quantifier": "all numbers of threads, all interleavings, all wait times, all failures of the system calls", "why_tests_cant": "The failure needs gettimeofday or clock_gettime to fail at one point inside a timed wait.", "anchors": ["sync/sync_util.cpp: WaitForUnixSemaphore, ReleaseUnixSemaphore"]}
{"id": "C79", "title": "Unlock never lowers the semaphore's count", "statement": "Releasing a semaphore leaves its count the same or one higher.", "quantifier": "all maximum values, all counts, all interleavings", "why_tests_cant": "It needs a maximum of 2^32-1 and as many releases.", "anchors": ["sync/sync_util.cpp: ReleaseUnixSemaphore", "sync/sync_semaphore.cpp: Create"]}
{"id": "C80", "title": "Opening a named object writes only inside it", "statement": "Opening a named object, whether new, existing or left over from an earlier use, writes only inside the memory that is mapped for it.", "quantifier": "all object sizes, alignments, page sizes and mutex sizes", "why_tests_cant": "Only a left-over object of an unlucky size shows it, and then only if the next page is not mapped.", "anchors": ["sync/sync_util.cpp: InitUnixNamedMem"]}
{"id": "C81", "title": "Windows: GetPlatformFilename stays inside the result buffer", "statement": "On Windows GetPlatformFilename writes its result only inside the buffer it is given, and returns failure if the normalised name and its terminator do not fit.", "quantifier": "all names, all buffer sizes", "why_tests_cant": "The write past the end is one byte and happens for exactly one buffer size per name.", "anchors": ["utf8/utf8_file_dir.cpp: File::GetPlatformFilename (Windows), lines 228-366"]}
{"id": "C82", "title": "Windows: GetPlatformFilename refuses device names and bad characters", "statement": "On Windows GetPlatformFilename accepts a name (unless unsafe names are asked for) only if no component, whatever its extension and case, is a device name such as NUL or COM1 and no character is a control or wildcard character; it accepts all other well-formed names.", "quantifier": "all names, all buffer sizes, signed and unsigned char", "why_tests_cant": "Infinitely many spellings; the miss needs a device name in one position.", "anchors": ["utf8/utf8_file_dir.cpp: File::GetPlatformFilename (Windows), lines 228-366"]}
{"id": "C83", "title": "Windows: GetPlatformFilename gives a normal form", "statement": "On Windows the result of GetPlatformFilename is the extended-length form of the name: a drive becomes \\\\?\\X:, a network path \\\\?\\UNC\\, slashes become backslashes, relative names stay; applying it to its own result changes nothing.", "quantifier": "all names, all buffers that are large enough", "why_tests_cant": "Eight ways to spell a name; idempotence is a statement about all of them.", "anchors": ["utf8/utf8_file_dir.cpp: File::GetPlatformFilename (Windows), lines 228-366"]}
{"id": "C84", "title": "Windows: GetAbsoluteFilename resolves names on their volume", "statement": "On Windows GetAbsoluteFilename returns the volume of the name (or of the base or current directory) followed by the components found by walking along the name, where . stays, .. goes to the parent and never above the root of the volume; the result has no dot components and ends with a backslash exactly if asked for.", "quantifier": "all names, base directories, current directories, result sizes", "why_tests_cant": "Unbounded combinations of dots, slashes, volumes and stale buffer contents.", "anchors": ["utf8/utf8_file_dir.cpp: File::GetAbsoluteFilename (Windows), lines 398-507"]}
{"id": "C85", "title": "Windows: a file transfers at its position and reports how much", "statement": "On Windows, for any sequence of Seek, Read and Write on an open file: a successful Read or Write transfers at least one byte if there is one to transfer, transfers exactly the bytes at the position the object reports and moves the position by the count it returns; a failed one changes nothing.", "quantifier": "all files below 2^62 bytes, all sequences of operations, all sizes, all short transfers and failures of ReadFile and WriteFile", "why_tests_cant": "Needs transfers of four gigabytes and more.", "anchors": ["utf8/utf8_file_dir.cpp: File::Seek, Read, Write, UpdateMaxPos (Windows), lines 135-215"]}
{"id": "C86", "title": "Windows: Dir::Read delivers every name that fits", "statement": "On Windows, Dir::Read returns the names of a directory one after the other in UTF-8, zero-terminated; it returns false only at the end or if name and terminator do not fit, never returns a name the directory does not have, and never writes outside the buffer.", "quantifier": "all directories, all Unicode names, all buffer sizes", "why_tests_cant": "The failures need a buffer of one particular size for a name of the directory.", "anchors": ["utf8/utf8_file_dir.cpp: Dir::Read (Windows), lines 1051-1063"]}
{"id": "C87", "title": "Windows: file times are converted without loss", "statement": "Times of files that Stat reports in Unix seconds are those of the file system, for all dates; a time set in microseconds is stored exactly; copying a file keeps the time of its last change.", "quantifier": "all 64-bit file times", "why_tests_cant": "Nobody tests with files from before 1970 or looks at the seventh digit after the second.", "anchors": ["utf8/utf8_file_dir.cpp: ConvertFILETIMEToUnixTime 961-971, ConvertUnixMicrosecondTimeToFILETIME 973-985, Copy 717-718, SetFileTimes 987-1018"]}
{"id": "C89", "title": "Windows: Readlink returns the target of the link", "statement": "On Windows, Readlink of a symbolic link or mount point returns its target in UTF-8, zero-terminated, or fails if that does not fit; it reads only what the system stored.", "quantifier": "all targets and names to be shown, stored in either order, all buffer sizes", "why_tests_cant": "A test needs Windows, the right to create links, and both layouts.", "anchors": ["utf8/utf8_file_dir.cpp: File::Readlink (Windows), lines 909-959"]}
{"id": "C90", "title": "Windows: Chmod makes a file writable or read-only", "statement": "On Windows, Chmod makes a file read-only exactly if the mode has no permission to write, keeps its other attributes, and Stat then shows the permission to write exactly if the file is not read-only.", "quantifier": "all attributes, all modes", "why_tests_cant": "Needs modes with execution but no write permission.", "anchors": ["utf8/utf8_file_dir.cpp: File::Chmod 667-684, File::Stat 833-835 (Windows)"]}
{"id": "C88", "title": "Windows: recursive Rmdir removes the directory and nothing else", "statement": "On Windows, Rmdir with Recursive removes the directory with everything beneath it and returns true; links inside it, and the directory itself if it is one, are removed without touching what they lead to; nothing outside is changed, and the name buffer is never overrun.", "quantifier": "all directory trees of any depth with links anywhere, read-only attributes, all names including those too long for the buffer", "why_tests_cant": "Deep trees, names near 8190 characters and junctions to the parent are not in a test directory; a mistake deletes foreign files.", "anchors": ["utf8/utf8_file_dir.cpp: Dir::Rmdir 1133-1153, Dir::Rmdir_RecurseInternal 1155-1190 (Windows)"]}
{"id": "C91", "title": "Windows: the wide file name is the whole name", "statement": "GetWindowsPlatformFilename returns true exactly if the wide buffer then holds the whole normalised name in UTF-16 with a terminator.", "quantifier": "all names, all buffer sizes, all stale contents of the buffers", "why_tests_cant": "Callers in the library always pass large buffers; others need not.", "anchors": ["utf8/utf8_file_dir.cpp: File::GetWindowsPlatformFilename, lines 508-517"]}
{"id": "C92", "title": "Windows: recursive Mkdir makes exactly the missing directories", "statement": "On Windows, Mkdir with Recursive makes every missing directory on the way and no other, never changes what exists, and returns true exactly if the last directory was missing.", "quantifier": "all trees, all names with a volume, any depth", "why_tests_cant": "Needs every combination of existing and missing components, on drives and on the network.", "anchors": ["utf8/utf8_file_dir.cpp: Dir::Mkdir (Windows), lines 1093-1131"]}
{"id": "C93", "title": "A timed wait has exactly the deadline that was asked for", "statement": "A semaphore or event wait with a timeout of Wait milliseconds that has to block gives up exactly Wait milliseconds after the clock was read (the deadline it hands to the system is normalised and exact), never earlier and never later, however often it is woken in vain, and succeeds only when there is something to take.", "quantifier": "all clock values that leave room for the timeout, all 32-bit timeouts, 32- and 64-bit time_t, all sequences of wake-ups", "why_tests_cant": "Overflow into the next second and spurious wake-ups cannot be provoked by a test that passes a timeout of a few milliseconds.", "anchors": ["sync/sync_util.cpp: WaitForUnixSemaphore 410-436, WaitForUnixEvent 555-592"]}
{"id": "C94", "title": "A reader-writer lock waits at most its timeout", "statement": "ReadLock and WriteLock with a timeout of Wait milliseconds block at most that long in all; a free lock is obtained; a call that fails gives back everything it took; without a timeout the lock is always obtained in the end.", "quantifier": "all timeouts, all waiting times of the underlying objects within their own timeouts, all clock readings; POSIX and Windows", "why_tests_cant": "The error in the units only shows when two waits in one call are long, and the spurious failure only when the second changes in between.", "anchors": ["sync/sync_readwritelock.cpp: ReadLock 68-115 and 258-296, WriteLock 117-140 and 298-320"]}
{"id": "C95", "title": "The microsecond clock is exact", "statement": "GetUnixMicrosecondTime is the number of whole microseconds since the start of 1970, on Windows (from a FILETIME, which counts 100 ns from 1601) and on POSIX.", "quantifier": "all times from 1970 on that fit in 64 bits", "why_tests_cant": "A test can only look at the time it runs at.", "anchors": ["sync/sync_util.cpp: GetUnixMicrosecondTime 46-60, 88-95", "environment/environment_appinfo.cpp: GetUnixMicrosecondTime 27-42, 54-61"]}
{"id": "C96", "title": "The parts of a synchronisation object do not overlap", "statement": "The memory of a mutex, semaphore, event, reader-writer lock or shared memory object, named or not, holds its header and all of its parts without overlap and without reaching past the bytes allocated.", "quantifier": "all sizes of the system's types, all alignment sizes, all kinds of objects, all sizes of shared memory", "why_tests_cant": "Sizes of pthread types differ between platforms; a test sees those of one machine.", "anchors": ["sync/sync_util.cpp: InitUnixNamedMem 120-134, GetUnixSemaphore(Size) 328-345, GetUnixEvent(Size) 464-482", "sync/sync_readwritelock.cpp: 225-242"]}
{"id": "C97", "title": "The parts of a synchronisation object are properly aligned", "statement": "Every part of a synchronisation object lies at an address that is a multiple of the alignment its type requires.", "quantifier": "all sizes and alignments of the system's types, all kinds of objects, named and unnamed", "why_tests_cant": "x86 tolerates misaligned mutexes, so tests pass; other processors and atomics that cross cache lines do not.", "anchors": ["sync/sync_util.cpp: GetUnixSystemAlignmentSize 97-109, AlignUnixSize 111-118"]}
{"id": "C98", "title": "SharedMem::First tells whether Create made the object", "statement": "After a successful Create, First() is true exactly if that Create created the shared memory object.", "quantifier": "all sequences of Create calls on one SharedMem, all outcomes", "why_tests_cant": "Needs one SharedMem object used for two names, the second of which exists already.", "anchors": ["sync/sync_sharedmem.cpp: Create 29-69, 82-109", "sync/sync_sharedmem.h: First"]}
{"id": "C99", "title": "Windows: shared memory has the size asked for", "statement": "After a successful Create on Windows, all GetSize() bytes at RawData() are mapped.", "quantifier": "all sizes", "why_tests_cant": "Needs shared memory of 4 GiB and more.", "anchors": ["sync/sync_sharedmem.cpp: Create 29-69 (Windows)"]}
{"id": "C100", "title": "Windows: reader-writer locks exclude", "statement": "On Windows, while a thread holds a reader-writer lock for writing nobody else holds it, in either way; when nobody holds it, it can be taken again; readers do not keep each other out.", "quantifier": "any number of threads and any interleaving of ReadLock, WriteLock, ReadUnlock and WriteUnlock in which threads release only what they hold; timeouts and failing calls at every point", "why_tests_cant": "Interleavings of the four Windows objects cannot be enumerated by running threads.", "anchors": ["sync/sync_readwritelock.cpp: ReadLock 68-115, WriteLock 117-140, ReadUnlock 142-174, WriteUnlock 176-184"]}
{"id": "C101", "title": "Windows: mutexes exclude, and survive a thread that ends", "statement": "On Windows at most one thread holds a mutex, through whatever objects of one name; Unlock succeeds exactly for the holder; and the mutex can be taken again after its holder unlocked it or ended.", "quantifier": "any number of threads and of objects sharing one name, any interleaving of Lock and Unlock(All or not), timeouts at every point, threads that end at any time", "why_tests_cant": "Needs a thread that ends while it holds the mutex, and thread numbers that are used again.", "anchors": ["sync/sync_mutex.cpp: Lock 66-99, Unlock 101-126 (Windows)"]}
{"id": "C102", "title": "Windows: Realpath gives long names", "statement": "On Windows, when no component of the name is a link, Realpath gives the volume and the components, each existing one replaced by the name it is stored under; if that does not fit the caller's buffer or the function's own, false is returned and the caller's buffer stays as it is.", "quantifier": "all accepted names, all stored names, all buffer sizes", "why_tests_cant": "Needs short (8.3) names in a path of about 8192 bytes.", "anchors": ["utf8/utf8_file_dir.cpp: File::Realpath 550-663 (Windows)"]}
{"id": "C103", "title": "A copy has the attributes of its source", "statement": "After a File::Copy on POSIX that returned true, the copy has the owner, the group, the permissions and the modification time of the source.", "quantifier": "all attributes of the source and of a file that is overwritten, root and every other user, systems that clear set-ID bits in chown or not", "why_tests_cant": "Depends on who runs the tests and on times with fractions of a second.", "anchors": ["utf8/utf8_file_dir.cpp: File::Copy 1584-1627 (POSIX)"]}
{"id": "C104", "title": "A copy runs as nobody else than its source", "statement": "After File::Copy on POSIX a copy has the set-user-ID bit only if the source has it and belongs to the same user, and the set-group-ID bit only if the source has it and belongs to the same group.", "quantifier": "all sources, destinations and users", "why_tests_cant": "Tests do not copy programs with these bits as a second user.", "anchors": ["utf8/utf8_file_dir.cpp: File::Copy 1584-1627 (POSIX)"]}
{"id": "C105", "title": "Chown and Chgrp find owners and groups by name", "statement": "On POSIX a successful Chown gives the file to the user of that name, a successful Chgrp to the group of that name; root can set every existing user and group; a call that fails changes nothing.", "quantifier": "all user and group databases, files and users", "why_tests_cant": "On most systems users and groups have the same names and numbers.", "anchors": ["utf8/utf8_file_dir.cpp: File::Chown 1562-1571, File::Chgrp 1573-1582 (POSIX)"]}
{"id": "C106", "title": "SetFileTimes sets the times that are given", "statement": "On POSIX a successful SetFileTimes sets each time that is given, exactly to the microsecond, and leaves the other one and everything else as it is.", "quantifier": "all times, files and users", "why_tests_cant": "A test that sets both times, or compares seconds, sees nothing.", "anchors": ["utf8/utf8_file_dir.cpp: File::SetFileTimes 1673-1708 (POSIX)"]}
{"id": "C107", "title": "Windows: Delete deletes the file or leaves it alone", "statement": "On Windows, Delete returns true exactly if the name is gone, also for read-only files; otherwise the file is as before; other files do not change.", "quantifier": "all volumes with any number of names per file; every call may fail", "why_tests_cant": "Needs a file that is in use by another program while it has attributes.", "anchors": ["utf8/utf8_file_dir.cpp: File::Delete 740-748 (Windows)"]}
{"id": "C108", "title": "Windows: Copy copies the file or changes nothing", "statement": "On Windows, after a successful Copy the destination has the contents and attributes of the source and everything else is as before; after a failed one everything is as before if the system's copy operation changed nothing; a file is never copied onto itself.", "quantifier": "all volumes with any number of names per file; every call may fail", "why_tests_cant": "Each of the seven system calls has to fail once, for each kind of destination.", "anchors": ["utf8/utf8_file_dir.cpp: File::Copy 697-722 (Windows)"]}
{"id": "C109", "title": "Windows: Move moves the file", "statement": "On Windows, after a successful Move the destination has what the source had and the name of the source is gone; after a failed one the source still has its contents.", "quantifier": "all volumes with any number of names per file; every call may fail", "why_tests_cant": "Needs a read-only source and a destination that exists.", "anchors": ["utf8/utf8_file_dir.cpp: File::Move 724-738 (Windows)"]}
{"id": "C110", "title": "Windows: directory helpers stay inside the caller's buffer", "statement": "On Windows, GetSystemAppStorageDir, GetCurrentUserAppStorageDir, GetTempStorageDir and GetExecutableFilename read and write only within the BufferSize bytes they are given.", "quantifier": "all buffer sizes, directories, executable names and application directories", "why_tests_cant": "Temporary paths are short and test buffers long.", "anchors": ["utf8/utf8_appinfo.cpp: AppInfo 25-101 (Windows)"]}
{"id": "C111", "title": "Windows: directory helpers deliver the directory or fail", "statement": "On Windows, the storage and temporary directory helpers return true exactly if the directory (with the application directory and separators) and its terminator fit, and then the buffer holds exactly that text and BufferSize is its size with terminator; otherwise they return false.", "quantifier": "all directories, application directories and buffer sizes", "why_tests_cant": "Needs user names that are not ASCII, and buffers of exactly the wrong size.", "anchors": ["utf8/utf8_appinfo.cpp: AppInfo 45-101 (Windows)"]}
{"id": "C112", "title": "Windows: GetExecutableFilename delivers the whole name or fails", "statement": "On Windows, GetExecutableFilename returns true only with the complete name of the executable, and false if the name does not fit or is not known.", "quantifier": "all names and buffer sizes", "why_tests_cant": "Names of programs in tests are ASCII and short.", "anchors": ["utf8/utf8_appinfo.cpp: AppInfo::GetExecutableFilename 25-43 (Windows)"]}
{"id": "C113", "title": "Windows: random blocks are filled completely", "statement": "On Windows, when CSPRNG::GetBytes returns true every byte of the block comes from the system's generator.", "quantifier": "all block sizes and generators", "why_tests_cant": "Needs a block of at least four gigabytes.", "anchors": ["security/security_csprng.cpp: CSPRNG::GetBytes 22-27 (Windows)"]}
{"id": "C114", "title": "Windows: volume names become drive letters", "statement": "On Windows, GetPlatformFilename replaces a volume name (Volume{...}) that the registry assigns to a drive by the letter of that drive, and the result denotes the same file.", "quantifier": "all registries, volume names, paths and buffers", "why_tests_cant": "Needs a registry with known volumes; names that are not resolved work just as well.", "anchors": ["utf8/utf8_file_dir.cpp: File::GetPlatformFilename 294-345 (Windows)"]}
{"id": "C115", "title": "Windows: names are cut into volume, path, file name and extensions", "statement": "On Windows, GetPlatformFilenameInfo finds the end of the prefix, the end of the volume, the start of the file name and of its first and last extension, for every name; dots in directories and hosts do not count.", "quantifier": "all names", "why_tests_cant": "Needs hosts and directories with dots, names without extension, names that end in a separator.", "anchors": ["utf8/utf8_file_dir.cpp: File::GetPlatformFilenameInfo 369-396 (Windows)"]}
{"id": "C116", "title": "Synchronisation objects release everything they acquire, exactly once", "statement": "After any sequence of calls on a semaphore, event, reader-writer lock, mutex or shared memory object (Create may be called repeatedly and its system calls may fail), destroying the object leaves nothing of it behind, and nothing is released that is not held.", "quantifier": "all sequences of calls, all failures of system calls, both platforms", "why_tests_cant": "Leaks show no effect; every sequence of creations and failures would have to be tried with a leak checker on both platforms.", "anchors": ["sync/sync_mutex.cpp: Create, ~Mutex", "sync/sync_semaphore.cpp: Create, ~Semaphore", "sync/sync_event.cpp: Create, ~Event", "sync/sync_readwritelock.cpp: Create, ~ReadWriteLock", "sync/sync_sharedmem.cpp: Create, ~SharedMem"]}
{"id": "C117", "title": "An object whose last Create did not succeed cannot be used", "statement": "All other calls on a synchronisation object return false before its first Create and after a Create that failed, and are carried out after one that succeeded.", "quantifier": "all sequences of calls and failures", "why_tests_cant": "It needs system calls that fail, in every combination.", "anchors": ["sync/sync_mutex.cpp: Lock", "sync/sync_readwritelock.cpp: ReadLock, WriteLock, ReadUnlock, WriteUnlock", "sync/sync_semaphore.cpp: Lock, Unlock", "sync/sync_event.cpp: Wait, Fire, Reset"]}
{"id": "C118", "title": "Mutexes of one name are one lock for as long as any of them exists", "statement": "Among any number of mutex objects in any processes, at no time are two of the same name held, and a mutex whose name nobody holds can be locked, whatever objects were created again, destroyed or failed to be created before.", "quantifier": "all numbers of objects, names and threads, all sequences of calls", "why_tests_cant": "The histories of several objects in several processes cannot be enumerated.", "anchors": ["sync/sync_mutex.cpp: Mutex::Create, ~Mutex, Lock, Unlock (POSIX)", "sync/sync_util.cpp: InitUnixNamedMem, UnmapUnixNamedMem"]}
{"id": "C119", "title": "Replacing text in a string variable replaces exactly the occurrences", "statement": "ReplaceData and ReplaceStr on a thread-local string variable, with or without a string, replace every leftmost non-overlapping occurrence, keep everything else, return their number, leave the text terminated and never use memory in an undefined way.", "quantifier": "all texts, patterns, replacements of any lengths, block sizes", "why_tests_cant": "Whether an overlapping memcpy does harm depends on the C library and the lengths; the NULL case needs a variable that was never set.", "anchors": ["sync/sync_tls.cpp: TLS::MixedVar::ReplaceData, ReplaceStr 414-442", "templates/fast_find_replace_util.h: FastReplaceAlloc::StaticReplaceAll, FindNext, Replace"]}
{"id": "C120", "title": "A mixed variable knows the kind of what was last put into it and keeps its numbers", "statement": "After any operations on any number of mixed variables (stores, text operations, copies), exactly one of IsNone, IsBool, IsInt, IsUInt, IsDouble, IsStr holds, namely that of the value most recently put in; GetBool, GetInt and GetUInt give the last integer stored, GetDouble the last floating-point number.", "quantifier": "all sequences of operations on all variables, all 64-bit values", "why_tests_cant": "The sequences of stores, text operations and copies cannot be enumerated.", "anchors": ["templates/static_mixed_var.h: StaticMixedVar 29-128", "sync/sync_tls.h: TLS::MixedVar 99-211", "sync/sync_tls.cpp: copy constructor, operator=, SetData 250-308"]}
{"id": "C121", "title": "An Open that succeeds does what its flags say", "statement": "When File::Open returns true, the file existed or O_CREAT was given, with O_CREAT and O_EXCL it did not exist, with O_TRUNC it is now empty and otherwise unchanged (or new and empty), GetMaxPos gives its size, and other objects are not affected.", "quantifier": "all flags, share flags, contents, numbers of objects and their states, both platforms", "why_tests_cant": "All combinations of flags with all states of other objects, on two platforms.", "anchors": ["utf8/utf8_file_dir.cpp: File::Open 58-133, 1207-1279"]}
{"id": "C122", "title": "An Open that fails changes nothing", "statement": "When File::Open returns false, the file is as it was before (not created, not emptied), whatever other objects have it open.", "quantifier": "all flags, share flags, contents, numbers of objects and their states, both platforms", "why_tests_cant": "Needs another process that holds a lock, and an Open that truncates.", "anchors": ["utf8/utf8_file_dir.cpp: File::Open 58-133, 1207-1279"]}
{"id": "C123", "title": "Objects have a file open together exactly if their share flags allow it", "statement": "At any time any two File objects that have the file open allow each other's access by their share flags, and an Open of a file that may be opened is refused only if one of the others does not allow it; the same on both platforms.", "quantifier": "all numbers of objects and all sequences of Open and Close, both platforms", "why_tests_cant": "The histories of several objects cannot be enumerated, and the platforms differ.", "anchors": ["utf8/utf8_file_dir.cpp: File::Open, Close 58-133, 217-226, 1207-1279, 1371-1380"]}
{"id": "C124", "title": "In append mode writing only ever adds to the end of the file", "statement": "A file opened with O_APPEND holds at all times what it held when it was opened, followed by exactly the bytes reported as written and those that others appended, in the order of the calls, whatever reads and seeks there are in between.", "quantifier": "all contents, all sequences of Seek, Read and Write and of appends by others, all results of the system calls, both platforms", "why_tests_cant": "All sequences of operations and other writers, on two platforms.", "anchors": ["utf8/utf8_file_dir.cpp: File::Open 58-133, 1207-1279; Seek 135-159, 1281-1301; Write 181-194, 1328-1349"]}
{"id": "C125", "title": "In append mode the position after a write is the end of the file", "statement": "After a successful Write to a file opened with O_APPEND, GetCurrPos and GetMaxPos are the size of the file, a read at that position finds the end of the file, and Seek(SeekEnd, 0) goes to it.", "quantifier": "all contents, data and sequences of operations, both platforms", "why_tests_cant": "Needs a file that is not empty when opened, and a look at the positions.", "anchors": ["utf8/utf8_file_dir.cpp: File::Open 1245-1276; Write 1328-1349; Seek 1281-1301; Read 1303-1326"]}
{"id": "C126", "title": "Semaphores and events behave the same on both platforms", "statement": "For every sequence of Create, Lock and Wait without waiting, Unlock, Fire, Reset and destruction on any number of semaphore and event objects, named or not, each call returns the same on POSIX and on Windows, including the previous count.", "quantifier": "all sequences of calls, objects, names, sizes and kinds", "why_tests_cant": "Needs the same sequences run on two platforms and compared.", "anchors": ["sync/sync_semaphore.cpp: 21-65, 80-135", "sync/sync_event.cpp: 21-68, 87-142", "sync/sync_util.cpp: UnixSemaphore and UnixEvent functions"]}
{"id": "C127", "title": "File::Stat on Windows describes the file", "statement": "On Windows File::Stat reports the type of what the name stands for (of a link itself only when asked to), whether it can be read, written and executed, its whole size, and two names get the same st_dev and st_ino only if they are the same file.", "quantifier": "all names, attribute words, sizes and current directories", "why_tests_cant": "The attribute words, drives, hosts and name endings cannot be enumerated.", "anchors": ["utf8/utf8_file_dir.cpp: File::Stat 750-859"]}
{"id": "C128", "title": "File::Symlink on Windows makes a working link to an existing target", "statement": "On Windows File::Symlink(Src, Dest) makes a link exactly if Src can be created and what the link would lead to exists, and the link is a directory link exactly if it leads to a directory.", "quantifier": "all trees, all names of links and all absolute and relative targets", "why_tests_cant": "Relative targets and trees have no bound.", "anchors": ["utf8/utf8_file_dir.cpp: File::Symlink 883-909; GetAbsoluteFilename 398-507"]}
{"id": "C129", "title": "File::Realpath on Windows follows links", "statement": "On Windows File::Realpath of a path through symbolic links and mount points ends, and gives the path of what the links lead to.", "quantifier": "all paths, all directory contents, all texts of links, all answers of the system", "why_tests_cant": "Chains of links, lengths of paths and contents of reparse points have no bound.", "anchors": ["utf8/utf8_file_dir.cpp: File::Realpath 550-663; GetAbsoluteFilename 398-507"]}
{"id": "C130", "title": "Calls on a reader-writer lock wait only for threads that hold it", "statement": "If no call is given up, the threads inside calls of a reader-writer lock finish, or wait while some thread holds the lock; unlocking always finishes.", "quantifier": "all numbers of threads, all interleavings of calls that unlock only what is held", "why_tests_cant": "Deadlocks need particular interleavings; on Windows one needs 2^31-1 read locks.", "anchors": ["sync/sync_readwritelock.cpp: ReadLock 68-115, 258-296, WriteLock 117-140, 298-320, ReadUnlock 142-174, 322-350, WriteUnlock 176-184, 352-360"]}
{"id": "C131", "title": "A writer that waits is not overtaken", "statement": "From the call of WriteLock on, no thread that comes later gets the reader-writer lock before the writer, unless the writer gives up.", "quantifier": "all numbers of threads, all interleavings", "why_tests_cant": "Overtaking depends on the scheduler and has no bound.", "anchors": ["sync/sync_readwritelock.cpp: ReadLock 258-296 (comment in 267), WriteLock 298-320, 68-140"]}
{"id": "C132", "title": "A call on a mutex waits only for another thread that holds it", "statement": "If no call is given up, the threads inside Lock and Unlock of a mutex finish, or wait in Lock while another thread holds the mutex.", "quantifier": "all numbers of threads and objects of one mutex, all interleavings", "why_tests_cant": "Interleavings have no bound.", "anchors": ["sync/sync_mutex.cpp: Lock 66-99 and 207-230, Unlock 101-126 and 232-257"]}
{"id": "C133", "title": "The calls on files and on directories take a name to be the same place", "statement": "For every name and every tree of directories and links, File::Stat, File::Delete and the other calls on files act on the place that Dir::Open, Dir::Mkdir and Dir::Rmdir act on when they are given the same name (POSIX).", "quantifier": "all names, all trees with links, all current directories", "why_tests_cant": "Trees, links and names cannot be enumerated, and the difference only shows with links in the right places.", "anchors": ["utf8/utf8_file_dir.cpp: GetPlatformFilename 1382-1401, GetAbsoluteFilename 1424-1531, Stat 1653-1659, Dir::Open 1720-1731, Mkdir 1770-1794, Rmdir 1796-1810"]}
{"id": "C134", "title": "A link made by File::Symlink can be used under the name it was given", "statement": "After File::Symlink made a link, File::Stat shows it, File::Readlink reads its target, and File::Delete removes it and nothing else, under the same name (POSIX).", "quantifier": "all names and trees", "why_tests_cant": "Names cannot be enumerated.", "anchors": ["utf8/utf8_file_dir.cpp: Delete 1645-1651, Stat 1653-1659, Symlink 1661-1664, Readlink 1666-1671"]}
{"id": "C135", "title": "File::Realpath gives the path of the file without links", "statement": "File::Realpath succeeds exactly if the name leads to a file and its path fits; the path then leads to the same file from everywhere, over no link; otherwise the buffer is unchanged (POSIX).", "quantifier": "all names, trees with links and buffer sizes", "why_tests_cant": "Trees, links and sizes cannot be enumerated.", "anchors": ["utf8/utf8_file_dir.cpp: Realpath 1542-1551"]}
{"id": "C136", "title": "Windows: Dir::Open opens the directory that is named", "statement": "Dir::Open asks the system for all entries of the directory its argument leads to, for every name GetAbsoluteFilename takes, with no other wildcard in the text and inside its arrays.", "quantifier": "all names, volumes and current directories", "why_tests_cant": "Names cannot be enumerated.", "anchors": ["utf8/utf8_file_dir.cpp: Dir::Open 1029-1049, GetAbsoluteFilename 398-506"]}
{"id": "C137", "title": "Named objects come through the end of processes that use them", "statement": "Whenever processes end or fail, the other processes can go on opening and closing a named object, and once no living process has it open it is made anew (POSIX).", "quantifier": "all numbers of processes, all interleavings, processes ending at any point, failures of mmap", "why_tests_cant": "A process would have to be killed at every instruction of every interleaving.", "anchors": ["sync/sync_util.cpp: InitUnixNamedMem 213-298, UnixNamedMemReady 303-306, UnmapUnixNamedMem 308-325"]}
{"id": "C138", "title": "A queue that must not be copied is not copied", "statement": "A QueueNoCopy object either cannot be copied or can be destroyed safely together with its copy.", "quantifier": "all histories of calls, all contents", "why_tests_cant": "Whether the copy is accepted is decided by the compiler and the damage is silent; a test has to destroy both objects for every content and order.", "anchors": ["templates/detachable_queue_util.h: QueueNoCopy 23-46, Empty 200-211, members 218-219"]}
{"id": "C139", "title": "Appending a container to itself loses nothing", "statement": "a.DetachAllAndAppend(a), on a list or queue, leaves every element in a.", "quantifier": "all histories of calls, all contents", "why_tests_cant": "The elements are lost without any error; a test has to use one object as both arguments for every shape.", "anchors": ["templates/detachable_list_util.h: DetachAllAndAppend 260-284", "templates/detachable_queue_util.h: DetachAllAndAppend 174-198"]}
{"id": "C140", "title": "Libraries are loaded while they are used and closed exactly once", "statement": "Every call through a function object enters a library that is loaded; library objects, copies included, close what they opened exactly once and never unload a library that somebody else uses.", "quantifier": "all programs over any number of library and function objects, calls by name, answers of the system and other users of the same libraries", "why_tests_cant": "The counts the system keeps are not visible, and a call into an unloaded library may even seem to work.", "anchors": ["templates/shared_lib.h: ModuleUtil 19-46, 125-152, FunctionUtil 48-73, 154-179", "templates/shared_lib_util.h: 8-66, 70-128"]}
{"id": "C141", "title": "A recursive Rmdir removes nothing outside of its directory, whatever other processes do", "statement": "While other processes change the contents of the directory, a recursive Rmdir removes only entries under the directory it was given (POSIX).", "quantifier": "all trees and names, all interleavings with all changes by others between any two system calls", "why_tests_cant": "The change has to come between two particular system calls; a test hits that by chance at best.", "anchors": ["utf8/utf8_file_dir.cpp: Dir::Rmdir 1796-1810, Rmdir_RecurseInternal 1812-1845"]}
{"id": "C142", "title": "Processes that make the same directories at the same time do not get in each other's way", "statement": "When several processes call a recursive Mkdir at once, for any directories, each of them finds its directory and all directories on the way when its call returns, nothing else changes, and of the calls for one directory that was missing exactly one returns true; a call returns false only if the directory was there when it began.", "quantifier": "any number of processes, all names and trees, all interleavings, with others that create things meanwhile", "why_tests_cant": "The outcome depends on the order of the system calls of several processes.", "anchors": ["utf8/utf8_file_dir.cpp: Dir::Mkdir 1770-1794"]}
{"id": "C143", "title": "A copy can be read by those only who can read the source", "statement": "At no moment during File::Copy and after it can anybody but the copying user read contents of the source in the copy who cannot read the source (POSIX).", "quantifier": "all users, groups, rights, umasks and destinations, all moments between system calls", "why_tests_cant": "A test looks at the copy when it is finished, not in between, and seldom runs as several users.", "anchors": ["utf8/utf8_file_dir.cpp: File::Copy 1584-1627, File::Open 1245"]}
{"id": "C144", "title": "Dir::Getcwd gives the current directory (Windows)", "statement": "Dir::Getcwd on Windows either returns the current directory as normalised by GetPlatformFilename, or returns false, and it reads only what it has written.", "quantifier": "all current directories, in any script and of any length, all contents of the stack and all result buffers", "why_tests_cant": "Tests run in a short directory with an ASCII name; the failures need long names or names in other scripts, and depend on what was on the stack.", "anchors": ["utf8/utf8_file_dir.cpp: Dir::Getcwd 1075-1091, GetPlatformFilename 228-366"]}
{"id": "C145", "title": "Copy changes its destination only, whatever others do", "statement": "While other processes rename files and make links, File::Copy on POSIX reads one file and changes one file, the one it opened under the destination's name, whose attributes afterwards are those of the file it read.", "quantifier": "all files, users and rights, all interleavings of Copy with changes by other processes", "why_tests_cant": "The failures need another process to change a name between two system calls of Copy.", "anchors": ["utf8/utf8_file_dir.cpp: File::Copy 1584-1627"]}
{"id": "C146", "title": "The thread-local allocator serves any number of threads", "statement": "Threads that use one TLS object get blocks that are large enough, keep their contents and are disjoint from all other blocks of all threads; a block may be freed in any thread, and when all blocks were freed and all threads have ended nothing is left allocated.", "quantifier": "all numbers of threads, sizes of caches, interleavings and sequences of calls", "why_tests_cant": "Tests use one thread, or threads that never exchange blocks, and caches of the default size.", "anchors": ["sync/sync_tls.cpp: TLS::ThreadInit 60-66, malloc 68-102, free 162-184, ThreadEnd 203-225"]}
{"id": "C147", "title": "An interrupted Copy or Move leaves old or new contents", "statement": "If the process ends inside of File::Copy or File::Move on POSIX, the contents of the source are not lost, and the destination is as it was before the call or has the contents of the source.", "quantifier": "all files, users, rights and moments", "why_tests_cant": "The process has to end between two given system calls, and something has to look at the disk then.", "anchors": ["utf8/utf8_file_dir.cpp: File::Copy 1584-1627, File::Move 1629-1643"]}
{"id": "C148", "title": "Windows: named objects of different classes or names have nothing in common", "statement": "On Windows, two named synchronisation objects use a common kernel object exactly if they have the same class, name and (for shared memory) size; creating one has no effect on creating or using another; names are built inside of their arrays.", "quantifier": "all classes, names and sizes, all states of the system", "why_tests_cant": "The suite uses one or two fixed names, each for one class.", "anchors": ["sync/sync_mutex.cpp: Create 53", "sync/sync_semaphore.cpp: Create 21-37", "sync/sync_event.cpp: Create 21-37", "sync/sync_readwritelock.cpp: Create 29-66", "sync/sync_sharedmem.cpp: Create 29-69", "sync/sync_sharedmem.h: comment in 19"]}
{"id": "C149", "title": "Recursive Mkdir works with every mode", "statement": "A recursive Dir::Mkdir on POSIX makes all missing directories with the rights that were asked for (less the mask), whatever the mode, if its caller may make the first of them, and leaves existing ones as they are.", "quantifier": "all names, directory trees with owners and rights, users, modes and masks", "why_tests_cant": "Tests use one usual mode, often as root.", "anchors": ["utf8/utf8_file_dir.cpp: Dir::Mkdir 1770-1794"]}
{"id": "C150", "title": "Recursive Rmdir is not limited by open files", "statement": "A recursive Dir::Rmdir on POSIX removes a directory and everything beneath it however few directories the process can have open at the same time, as rm -r does; if it fails, that is known from its result.", "quantifier": "all directory trees, names and limits on open directories", "why_tests_cant": "Tests have trees of a few levels and far more descriptors than that.", "anchors": ["utf8/utf8_file_dir.cpp: Dir::Rmdir 1796-1845"]}
{"id": "C151", "title": "Apple: GetExecutableFilename reports the running executable or fails", "statement": "On Apple systems GetExecutableFilename reads and writes only within the BufferSize bytes it is given, and returns true only with the resolved name of the running executable.", "quantifier": "all buffer sizes, executable names, values of Argv0 and file systems", "why_tests_cant": "The wrong answers need an empty buffer, or one shorter than the path together with a file that has the name Argv0.", "anchors": ["utf8/utf8_appinfo.cpp: AppInfo::GetExecutableFilename 105-161 with the Apple part 124-127"]}
{"id": "C152", "title": "The user's directory is found or refused", "statement": "GetCurrentUserAppStorageDir on POSIX delivers the directory made from HOME, or from the user's entry in the password database if HOME is not set, and returns false if there is neither.", "quantifier": "all environments, password databases, buffers and application names", "why_tests_cant": "Tests run as users who have both.", "anchors": ["utf8/utf8_appinfo.cpp: AppInfo::GetCurrentUserAppStorageDir 177-193"]}
{"id": "C153", "title": "A named mutex excludes processes that fork", "statement": "While a process holds a named mutex on POSIX, no other process gets it, also if the holder makes another process with fork.", "quantifier": "all numbers of processes, all sequences of fork, Lock, Unlock, destruction and process ends", "why_tests_cant": "Needs a fork while the mutex is held.", "anchors": ["sync/sync_mutex.cpp: Mutex::Lock, Unlock, destructor (POSIX) 134-149, 207-257"]}
{"id": "C154", "title": "A mutex survives a thread that ends", "statement": "On POSIX, living threads hold a mutex one at a time, however threads start and end; after its holder ended the mutex can be taken again by Lock, and Unlock by a thread that has not locked it returns false.", "quantifier": "all sequences of thread starts, thread ends, Lock and Unlock, all ways to use thread identifiers again", "why_tests_cant": "Needs a thread that ends while it holds the mutex, and identifiers that are used again.", "anchors": ["sync/sync_mutex.cpp: Mutex::Lock, Unlock (POSIX) 207-257", "sync/sync_util.cpp: Util::GetCurrentThreadID 83"]}
{"id": "C155", "title": "A named object keeps its contents while it is in use, also across fork", "statement": "On POSIX the contents of a named synchronisation or shared memory object are made anew only when no process has it open, also if processes fork.", "quantifier": "all numbers of processes, all sequences of Create, destruction, fork and process ends", "why_tests_cant": "Needs a fork while the object is open, and a Create after the new process has closed it.", "anchors": ["sync/sync_util.cpp: InitUnixNamedMem 205-300, UnmapUnixNamedMem 308-324"]}

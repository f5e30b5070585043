# Formal model of cross-platform-cpp: design

Source: `/repo` (cubiclesoft/cross-platform-cpp, read as text, never built or run).
Prover: Coq 8.16.1. All files live in `rocq/theories`, logical prefix `Verif`.
`properties.jsonl` has 155 properties; `MANIFEST.json` maps each to its theorems (535 in all).

## Method

* Every C++ function that is modelled becomes a total Gallina function (concurrent code: a labelled
  transition system); the comment above the definition cites the file and lines and says what is simplified.
* Undefined behaviour (out-of-bounds access, signed overflow, NULL dereference, division by
  zero, double free, unlocking a mutex one does not hold) is a distinct outcome `UB` of the model, never a
  default value. Loops whose termination is not structural take fuel and return `Fuel` when it runs out; the
  theorems show that `Fuel` is not returned (or, for a non-termination finding, that it is returned for every fuel).
* Uninitialised memory is a parameter of the model (arbitrary bytes), so every theorem holds for all its values.
* Buffers are lists of bytes whose length is the capacity; pointer structures are heaps
  (maps from addresses to node fields, address 0 is NULL); concurrent code is a labelled
  transition system whose steps are the atomic actions of each thread, and the theorems are
  about all runs (all interleavings, any number of threads).
* Machine integers are `N`/`Z` with explicit `mod 2^32`/`mod 2^64` wherever the code can wrap.
* What the system does (read(2), write(2), malloc, dlopen, the random device, wake-ups, the clock, ...) is a
  parameter: theorems quantify over every behaviour of it.
* File layout: `M_*.v` models, definitions only; `S_*.v` specifications, which do not import the models;
  `P_*.v` lemmas; `Prop_*.v` the final theorems, an `Example` beside each, and `Print Assumptions`.
* A property the code violates is kept as stated; its theorem list then holds a `..._refuted` theorem with a
  witness (often for *every* input of a class) and the positive theorems under the condition under which it holds.
* Mutation tests (wrong programs): `seeded/LOG.jsonl`. One line per edit of a model definition, with the
  theorems whose proofs failed.

## Trusted base

* Coq 8.16.1 kernel, including its virtual machine (`vm_compute` is used for concrete examples and some finite
  sweeps).
* `Print Assumptions`: **every property theorem is "Closed under the global context"**: no axiom at all, neither
  of the standard library nor of our own. (The whole-library scan of `vcheck`/`coqchk` also lists
  `Coq.ssr.ssrunder.Under_rel.*`, which comes with loading the standard library's ssreflect files through `lia`'s
  dependencies; no theorem depends on it.)
* No `Admitted`, no axioms, no functors or module types, no kernel checks switched off; no `Variable` or
  `Hypothesis` outside a section.
* The hand translation from C++ to the `M_*.v` files. The code is not compiled or run here, so the model is tied
  to it by reading only; every definition cites the lines it models, and the section "What is modelled" below
  lists every simplification.

## Properties: model, method, status

Status: **P** proved as stated; **R** the statement is false of the code as modelled: the `_refuted` theorem gives the witness and the other theorems prove it under the condition the note states; **p** partial.

| id | property | status | file | theorems | note |
|----|----------|--------|------|----------|------|
| C01 | Unsigned integer formatting is exact, and fits exactly when there is room | P | Prop_ConvertInt | `C01_tostring_exact`, `C01_numeral_unique` | Exact success condition and text for every value, radix and buffer; numeral spec shown to be unique. |
| C02 | Thousands separators group digits in threes from the right and change nothing else | P | Prop_ConvertInt | `C02_separator_exact`, `C02_separator_removal` | Exact text with separators in groups of three; removal theorem. |
| C03 | Signed integer formatting is exact for every int64_t | R | Prop_ConvertInt | `C03_signed_exact`, `C03_int64_min_refuted` | REFUTED for INT64_MIN (negation overflows, line 53); proved for every other int64_t. |
| C04 | File-size formatting shows the truncated quotient by the unit | R | Prop_ConvertInt | `C04_filesize_exact`, `C04_filesize_digit_limits`, `C04_filesize_wrap_refuted` | REFUTED: scaling wraps modulo 2^64 (1.5 EB with 2 digits shows 1.02 EB). Proved exact whenever the scaled remainder fits 64 bits, in particular up to 13/10/7/4/1 digits for M/G/T/P/E. |
| C05 | The JSON serializer never writes outside the buffer it was given | R | Prop_Json | `C05_in_bounds`, `C05_sized_append_refuted`, `C05_int64_min_refuted` | REFUTED: AppendInt(INT64_MIN) negates it, and the AppendStr overload with a size overruns the buffer (its size computation only looks at the first character). Proved for every other sequence of calls, flushes, buffer changes and resets. |
| C06 | A JSON serializer call that reports failure leaves the document unchanged | P | Prop_Json | `C06_failure_changes_nothing` | A refused call leaves the whole state, buffer bytes included, unchanged. |
| C07 | Everything the serializer emits is a well-formed JSON document describing the calls made | R | Prop_Json | `C07_document`, `C07_finished_document`, `C07_any_argument_refuted` | REFUTED for doubles that are not finite and for control characters (and for slashes, see C08). Proved for every other program: the flushed text denotes the value tree described by the accepted calls, for any punctuation strings with white space. |
| C08 | JSON string escaping round-trips | R | Prop_Json | `C08_roundtrip`, `C08_slash_refuted` | REFUTED: a slash is dropped when slashes are not escaped (the default). Proved for every string without slashes (or with escaping on) whose control characters have a named escape. |
| C09 | The JSON serializer enforces structure | P | Prop_Json | `C09_accept_exact`, `C09_structure_rules` | Exact acceptance condition of every call: structure, depth and room. |
| C10 | Finish closes every open scope and terminates the text | P | Prop_Json | `C10_finish_exact` | Exact success condition, text and state. |
| C11 | UTF-8 conversion respects the destination size and its counting pass | P | Prop_Utf8 | `C11_capacity`, `C11_counting_pass`, `C11_alloc` | Capacity, untouched rest of the buffer, counting pass and the allocating version, for source widths 1, 2 and 4. |
| C12 | ConvertToUTF8 output is always well-formed, shortest-form UTF-8 | P | Prop_Utf8 | `C12_output_wellformed`, `C12_output_exact`, `C12_scan_total` | Output is shortest-form UTF-8 of allowed code points; also the exact code points kept (scan + keeps relations). |
| C13 | Well-formed text passes through ConvertToUTF8 unchanged; conversion is idempotent | P | Prop_Utf8 | `C13_wellformed_unchanged`, `C13_idempotent`, `C13_overlong_normalised` | Identity on well-formed text, idempotence, and normalisation of overlong patterns. |
| C14 | UTF-16 and UTF-32 text round-trips through UTF-8 | P | Prop_Utf8 | `C14_roundtrip` | Round trip for UTF-8, UTF-16 and UTF-32 units. |
| C15 | ConvertFromUTF8 never overruns and decodes a maximal prefix | P | Prop_Utf8 | `C15_maximal_prefix`, `C15_counting_needs_size_refuted` | Maximal prefix with the exact stopping reason. Side finding (refuted lemma): the counting pass depends on the announced size being nonzero. |
| C16 | UTF-8 length, search and iteration helpers terminate | R | Prop_Utf8 | `C16_strlen_diverges_refuted`, `C16_next_diverges_refuted`, `C16_find_diverges_refuted`, `C16_from_alloc_diverges_refuted` | REFUTED: Util::strlen calls itself through NextCodePoint (unqualified strlen), so strlen, NextCodePoint from the start, NextASCIICodePoint, FindCodePoint and the allocating ConvertFromUTF8 never return, on any string. |
| C17 | IsCombiningCodePoint recognises exactly the four combining blocks | P | Prop_Utf8 | `C17_combining_exact`, `C17_never_first` | Exact blocks, and no converted text starts with one. |
| C18 | The detachable list is a sequence | P | Prop_List | `C18_list_is_a_sequence`, `C18_single_node_reinsertion_not_detected` | Refinement of a sequence for every history of calls over any number of lists sharing nodes, any allocator; the second theorem records that the documented rule is not enforced for a node that is alone in its list. |
| C19 | The detachable queue is a sequence | P | Prop_List | `C19_queue_is_a_sequence` | Refinement of a sequence for every history of calls over any number of queues. |
| C20 | DetachAllAndAppend concatenates | P | Prop_List | `C20_append_lists`, `C20_append_queues`, `C20_copy_lists`, `C20_copy_queues` | After every history, for lists and queues: DetachAllAndAppend concatenates; assignment (copy construction is the case of an empty target) gives the same values in fresh nodes. |
| C21 | The ordered hash is an insertion-ordered map with unique keys | P | Prop_Hash | `C21_ordered_hash_is_a_map` | Refinement of an insertion-ordered map for every history of calls over any number of containers, with an arbitrary hash function each, so for every collision pattern and every automatic growth. |
| C22 | Resizing the ordered hash loses nothing | P | Prop_Hash | `C22_resize_is_invisible`, `C22_chains_exact` | Any resize at any point leaves all later results unchanged; the chains are exact after every history. |
| C23 | A copied ordered hash behaves like the original | R | Prop_Hash | `C23_copy_finds_nothing_refuted`, `C23_copy_walks_like_the_original` | REFUTED: after copy construction every Find in the copy returns NULL, for all contents. Proved: the list walk of the copy gives the same keys and values in order, and the original is untouched. |
| C24 | Empty(false) leaves all nodes re-insertable | R | Prop_Hash | `C24_reinsert_next_to_a_node`, `C24_push_after_empty_refuted` | REFUTED: for every hash with two or more nodes, Empty(false) followed by Push of the first node leaves its old successor linked. Proved: insertion next to a node of another hash is correct. |
| C25 | The packed ordered hash is an insertion-ordered map | P | Prop_Packed | `C25_packed_hash_is_a_map`, `C25_short_histories_are_legal`, `C25_steps_update_the_map`, `C25_packed_hash_last_value` | Refinement of an insertion-ordered map for every history, any hash function, with fewer than 2^30 slots; for histories that unset by key the map is a fold over the calls. |
| C26 | Optimize compacts without changing the map | P | Prop_Packed | `C26_optimize_compacts` | Optimize after any history: no gaps, same entries in the same order, same lookups. |
| C27 | Packed hash iteration visits each entry once in order, both ways | P | Prop_Packed | `C27_iteration_visits_all` | Next and Prev after any history visit exactly the set positions in order and in reverse. |
| C28 | Copying a packed hash is memory safe and gives an equal map | R | Prop_Packed | `C28_copy_reads_past_the_nodes_refuted` | REFUTED: the copy loop compares a source pointer with the end of the destination array, so copying any packed hash (even an empty one) reads past the source's nodes, for any placement of the two blocks. |
| C29 | The cache returns only what was stored under exactly that key | P | Prop_Cache | `C29_find_is_history`, `C29_remove_answer`, `C29_never_inserted_never_found` | Any program over any number of caches: Find, Exists and Remove answer exactly what the history of that cache stores; declarative history spec. |
| C30 | Static vectors are values | P | Prop_Vec | `C30_vectors_are_values`, `C30_equality`, `C30_no_leaks` | Refinement over a heap of arrays with freed blocks; equality; no leaks. |
| C31 | Two-dimensional arrays can be assigned | R | Prop_Arr2 | `C31_reshaping_assignment_refuted`, `C31_arrays_are_values_otherwise` | REFUTED: assigning a non-empty array to one of a different shape writes through NULL, in every reachable state. Proved: without such assignments arrays behave as grids. |
| C32 | StaticMixedVar strings stay terminated and inside their buffer | R | Prop_MixedVar | `C32_inside_and_terminated`, `C32_fresh_prepend_refuted` | REFUTED for a new object (prepending copies an uninitialised byte as terminator). Proved: every history stays inside the buffer, and is terminated once one call has written a terminator. Double conversions (snprintf) are outside the model. |
| C33 | StaticMixedVar string operations compute what they say | R | Prop_MixedVar | `C33_text`, `C33_spec_determined`, `C33_prepend_exact_fit_refuted`, `C33_int64_min_refuted`, `C33_radix_zero_refuted` | REFUTED: a prefix that fits exactly is not prepended; INT64_MIN and radix 0 are undefined. Proved: exact text and answers for every other history, numerals included. |
| C34 | The keyed hash is SipHash-c-d and the simple hash is its documented recurrence | P | Prop_HashFn | `C34_siphash`, `C34_djb`, `C34_djb_string` | SipHash-c-d of the padded message, word-wise and string x33 hashes, for every buffer, size, key and round count; little-endian, alignment ignored. |
| C35 | Random integers lie in the requested range | P | Prop_Random | `C35_in_range` | For every device behaviour. |
| C36 | Random integers are unbiased | P | Prop_Random | `C36_unbiased` | Exact count of draws per value by explicit bijection, over the device model (interrupted, short and failed reads). |
| C37 | FastFind finds exactly the occurrences | P | Prop_Find | `C37_finds_exactly`, `C37_determinate`, `C37_first` | Every program of calls on a finder, any element comparison, refines a search specification that is shown determinate; no read outside pattern or data. |
| C38 | ReplaceAll replaces and keeps everything else | R | Prop_Find | `C38_replaces_all`, `C38_spec_determines`, `C38_limit_drops_tail_refuted` | REFUTED with a limit: whenever there are more occurrences than the limit, everything from the first unreplaced one is missing. Proved without a limit (or one that is not exceeded), for the Alloc variants; C39 covers when the plain variants do the same. |
| C39 | Replacement buffers grow without reading outside the old buffer | R | Prop_Find | `C39_alloc_variants_safe`, `C39_plain_variants_in_room`, `C39_plain_variants_fifty`, `C39_plain_variants_refuted` | REFUTED for the variants that grow with new and memcpy: default arguments, 513 occurrences. Proved safe for the Alloc variants on all inputs, and for the plain ones when the replacement is not longer or there are at most 50 occurrences. |
| C40 | The mutex excludes | P | Prop_Mutex | `C40_excludes`, `C40_available` | For every number of threads and objects, failures and timeouts included, recursion below 2^32. The semaphore below is the atomic one (C42). |
| C41 | The mutex is recursive and only its owner can unlock it | P | Prop_Mutex | `C41_atomic`, `C41_returns`, `C41_wraps` | Calls return what an atomic recursive mutex returns. C41_wraps: the bound on the depth is needed. |
| C42 | The semaphore's count stays within its limits and grants are bounded by releases | P | Prop_Sem | `C42_atomic`, `C42_bounds`, `C42_protected` | For every number of threads, every interleaving, timeouts, errors and spurious wakeups, and a maximum below 2^32-1 (see C79 for that value). The calls act like those of an atomic counter. |
| C43 | The semaphore loses no wakeup | R | Prop_Sem | `C43_cared`, `C43_quiet`, `C43_refuted` | REFUTED if a wakeup may be consumed by a waiter that times out at that moment, which POSIX allows. Proved if not: a positive count with sleepers always has a woken thread on its way. |
| C44 | An automatic event releases at most one waiter per Fire, and does release one | R | Prop_Event | `C44_atomic`, `C44_at_most`, `C44_released`, `C44_quiet`, `C44_manual`, `C44_refuted` | REFUTED (b): a waiter that is giving up is still counted; the event fired at that moment is passed to nobody, and a later wait sleeps although the event is signaled. (a) proved for all executions; (b) proved if no wait is given up; manual events proved always. |
| C45 | The reader-writer lock excludes | P | Prop_RW | `C45_excludes`, `C45_available`, `C45_shared`, `C45_unchecked` | For every number of threads, failures and timeouts included, fewer than 2^32 read locks out at once. C45_unchecked: nothing checks the discipline. |
| C46 | A named object is used only after it is initialised | R | Prop_Named | `C46_once`, `C46_refuted` | REFUTED for re-creation after the last close: the object is unlocked before it is initialised again, another process may open and use it meanwhile, and the initialising process then unlocks a mutex it does not hold. Proved for every number of processes and interleaving of opens and closes in which, once opened, somebody always has the object open. |
| C47 | Shared-object names are safe and distinct | P | Prop_Name | `C47_safe`, `C47_text`, `C47_long`, `C47_distinct`, `C47_prefixes`, `C47_collide`, `C47_sizes` | For every array size of at least 3, pointer width, prefix and name. C47_long: the exact text when the name does not fit. C47_collide: two long names may give one object name. C47_sizes: so do sizes that differ by 2^32. |
| C48 | The thread-local allocator gives disjoint, large-enough blocks | P | Prop_Tls | `C48_allocator` | Whatever a client does, for any number of operations: malloc, realloc and free refine a disjoint-block specification; ThreadEnd leaks nothing. Sizes up to 2^30; the system has memory (see C68); the queues of cached blocks are sequences (C19). |
| C49 | realloc and dup_malloc keep the contents | R | Prop_Tls | `C49_keep_contents`, `C49_dup_refuted` | REFUTED: a block of an uncached class grown by realloc and duplicated loses its tail (the size byte is stale), for every such class. Proved: realloc keeps the common part always, dup_malloc everything when realloc was used for cached sizes only. |
| C50 | TLS MixedVar is an unbounded string | R | Prop_TlsVar | `C50_strings`, `C50_setsize_refuted`, `C50_copy_refuted` | REFUTED: SetSize(0) on a new variable writes through NULL; copy construction frees an indeterminate pointer. Proved: every other sequence of operations over any number of variables gives the exact texts, terminated, without leaks (texts below 2^29, system has memory). Doubles and ReplaceData are outside the model. |
| C51 | Storage-directory helpers stay inside the caller's buffer | R | Prop_AppInfo | `C51_system_and_temp_inside`, `C51_user_inside_iff`, `C51_executable_inside`, `C51_outside_refuted` | REFUTED: GetTempStorageDir writes 6 bytes into 5; the home directory helper overruns by one when the buffer has the length of HOME and reads before the buffer when HOME is empty (exact conditions proved). Proved for the other helpers and all other sizes. |
| C52 | Calling an exported function through the shared-library wrapper calls it | R | Prop_SharedLib | `C52_call_calls`, `C52_searched_once`, `C52_void_refuted` | REFUTED for CallVoid: after every history, on every system, it returns false and calls nothing. Proved for the other three calls and for the number of searches. |
| C53 | File positions stay inside the file bounds | R | Prop_File | `C53_bounds`, `C53_exact`, `C53_ends`, `C53_forward_refuted` | REFUTED: seeking forward by 2^64 - j moves back by j. Proved: positions never leave the file whatever the system calls do; without failing writes every operation does exactly what the byte-array specification says, for any splitting of transfers, interrupted and failing reads included; every operation ends. Files changed by others and O_APPEND are outside the model. |
| C54 | Copy produces an identical file | R | Prop_File | `C54_multiple`, `C54_prefix`, `C54_refuted`, `C54_errors_refuted` | REFUTED: every file whose length is not a multiple of 8192 gets leftovers appended, whatever the system calls do; write errors are not noticed. Proved: exact copy for multiples of 8192, source is a prefix otherwise. |
| C55 | Write writes each byte once in order | R | Prop_File | `C55_write`, `C55_interrupt_refuted`, `C55_first_refuted` | REFUTED: an interrupted write repeats a byte, and before the first byte reads outside the data. Proved for every splitting into short writes and every failure. |
| C56 | LineInput splits text into lines for every chunking | R | Prop_Line | `C56_lines`, `C56_short_line`, `C56_grow_refuted`, `C56_short_read_refuted`, `C56_short_read_crlf_refuted`, `C56_zero_refuted` | REFUTED: without an allocator every line longer than the hint (>= 2) is copied from beyond its block; a short read(2) cuts a line or doubles a line end; a hint of 0 never returns. Proved for all contents, positions and hints with an allocator or a hint of 1, and for lines within the hint without one, when read(2) gives what is asked for. |
| C57 | GetAbsoluteFilename normalises | R | Prop_Path | `C57_resolves`, `C57_resolves_cwd`, `C57_refuted`, `C57_dotdot_refuted`, `C57_root_refuted`, `C57_short_refuted` | REFUTED: names beginning with '..' are resolved wrongly or kept, the root gives an empty string, a short buffer a directory above. Proved: from a directory without dot components, every name whose first component is neither '.' nor '..' is resolved exactly when it fits. |
| C58 | Valid UTF-8 file names survive GetPlatformFilename | R | Prop_Path | `C58_accepted`, `C58_refused`, `C58_too_long`, `C58_signed_refuted` | REFUTED where char is signed: every name with a byte above 127 is refused. Proved for unsigned char, and for ASCII names either way; refusals proved for both. |
| C59 | Recursive Rmdir removes exactly the subtree | R | Prop_Dir | `C59_removes`, `C59_only_below`, `C59_link_top`, `C59_names_refuted`, `C59_utf8_refuted`, `C59_wrong_place_refuted` | REFUTED: a directory inside whose name has a wildcard (or, where char is signed, a byte above 127) is not emptied and the call fails; a relative name beginning with '..' removes another directory. Proved: for all trees of directories with acceptable names exactly the subtree is removed; for every tree and every name only entries under the place reached are removed, links are never followed. |
| C60 | StaticReplaceAll is a bounded replace-all | P | Prop_Find | `C60_bounded_replace`, `C60_limit_safe` | Exact bytes of the destination for every size, destination not overlapping the data; with an exceeded limit the tail is dropped as in C38. |
| C61 | Appending UTF-8 text to a UTF8MixedVar keeps it whole when it fits | R | Prop_MixedVar | `C61_append_multibyte_refuted`, `C61_append_ascii`, `C61_append_inside` | REFUTED: one character beyond ASCII is never appended, whatever the room (a count of wide characters is used as byte capacity). Proved for ASCII; memory safety for all texts. |
| C62 | Reading random bytes terminates or reports failure | R | Prop_Random | `C62_get_bytes_refuted`, `C62_get_bytes_full` | REFUTED: a device that never delivers the full amount makes GetBytes loop forever. Proved: the first full read is returned. |
| C63 | LastPos tells how much of the source produced the output | R | Prop_Utf8 | `C63_lastpos_short_sequences`, `C63_lastpos_refuted` | REFUTED: three-byte sequences do not move LastPos (nor do four-byte ones move it past themselves). Proved for sources with bytes below 0xE0. |
| C64 | A hash can be constructed with any estimated size | R | Prop_Hash | `C64_estimated_size_zero_refuted`, `C64_nonzero_size_usable` | REFUTED for EstimatedSize 0 (division by zero). Proved usable for every other size. |
| C65 | Setting a UTF8MixedVar from wide text stores well-formed UTF-8 | R | Prop_MixedVar | `C65_set_whole`, `C65_set_exact`, `C65_set_cuts_character_refuted` | REFUTED: a text filling the buffer exactly loses the last byte of its last character. Proved: whole when it fits with the terminator; exact result otherwise. |
| C66 | Storage-directory helpers deliver the directory whenever it fits | R | Prop_AppInfo | `C66_directories`, `C66_exact_fit_refuted` | REFUTED: a directory that fits exactly is refused. Proved: exact text, size and success condition. |
| C67 | GetExecutableFilename reports the running executable or fails | R | Prop_AppInfo | `C67_executable`, `C67_truncated_refuted` | REFUTED: a link longer than the buffer is cut and the cut name resolved; a wrong file can be returned. Proved for links shorter than the buffer. |
| C68 | The thread-local allocator reports lack of memory with NULL | R | Prop_Tls | `C68_null_when_cached`, `C68_malloc_refuted`, `C68_realloc_refuted` | REFUTED: for every uncached size a failing malloc writes near address 0; a failing realloc copies to NULL. Proved for malloc of cached sizes, free and dup_malloc, for every pattern of failures. |
| C69 | The position of a file is where the next transfer happens | R | Prop_File | `C69_refuted` | REFUTED: after a write that fails part-way the object's position stays while the system's moved, for every file. The positive part is C53_exact. |
| C70 | A failed Open leaves the object closed | R | Prop_File | `C70_open`, `C70_locked_refuted` | REFUTED: when the lock is refused the file stays open and can be written. Proved for the other failures. |
| C71 | Moving a file never loses its contents | R | Prop_File | `C71_moved`, `C71_lost_refuted` | REFUTED: between file systems, if writes fail, the source is deleted and the destination empty. Proved for rename and for lengths that are multiples of 8192 without errors. |
| C72 | GetPlatformFilenameInfo finds the parts of a name | P | Prop_Path | `C72_parts`, `C72_unique` | For every string. |
| C73 | GetAbsoluteFilename stays inside its buffers | R | Prop_Path | `C73_inside`, `C73_stale_refuted` | REFUTED: the bytes after the text are never written but read; if they are slashes to the end of the array the loop reads past it. Proved for all names, directories and sizes if the last stale byte is not a slash. |
| C74 | LoadEntireFile delivers the whole file or fails | P | Prop_Line | `C74_exact`, `C74_succeeds` | For every behaviour of the system calls. A short read makes it fail although the file is readable. |
| C75 | Recursive Mkdir creates exactly the missing directories | P | Prop_Dir | `C75_creates`, `C75_keeps` | For every tree in which the path meets only real directories, and every acceptable name that fits; for every tree and name nothing existing changes. |
| C76 | Readlink gives a terminated string | R | Prop_Dir | `C76_contents`, `C76_zeroed`, `C76_refuted` | REFUTED: no terminator is written, for every target and every size. Proved: the bytes are the target, and it is a string if the byte after it was zero before. |
| C77 | Dir::Read visits every entry | R | Prop_Dir | `C77_visits`, `C77_fits`, `C77_refuted` | REFUTED: a name that does not fit looks like the end of the directory, and the entries after it are lost. Proved if every name fits; the buffer is never overrun. |
| C78 | A returning semaphore call leaves the internal lock free | R | Prop_Sem | `C78_given_back`, `C78_refuted`, `C78_forever` | REFUTED: if the clock cannot be read, Lock returns with the internal lock held, and nobody ever gets or releases the semaphore again. Proved if the clock can be read. |
| C79 | Unlock never lowers the semaphore's count | R | Prop_Sem | `C79_not_lower`, `C79_refuted` | REFUTED for a maximum of 2^32-1: the count wraps to zero. Proved for every smaller maximum. |
| C80 | Opening a named object writes only inside it | R | Prop_Named | `C80_refuted`, `C80_fits` | REFUTED: for every size more is cleared than the object has, and memory past the mapping is written when the object ends near the end of a page. C80_fits: exactly when it is harmless. |
| C81 | Windows: GetPlatformFilename stays inside the result buffer | R | Prop_WinPath | `C81_safe`, `C81_exact_fit_refuted`, `C81_volume_refuted` | REFUTED: a buffer whose size is exactly the length of the normalised name is written one byte past its end; a known volume cut with a wrapped length. C81_safe: seven bytes more than the name are always enough; C81_exact_fit_refuted also proves what happens for every other size. |
| C82 | Windows: GetPlatformFilename refuses device names and bad characters | R | Prop_WinPath | `C82_accepts`, `C82_relative`, `C82_drive_refuted` | REFUTED: the component right after a drive letter or prefix is not looked at ('C:NUL'), and with signed char every name with a byte above 127 is refused. C82_accepts: the exact set of accepted names; C82_relative: as stated for names without prefix. |
| C83 | Windows: GetPlatformFilename gives a normal form | R | Prop_WinPath | `C83_text`, `C83_idempotent`, `C83_volume_refuted` | REFUTED for volume names: Volume{...} becomes \\?\Volume{...} and that becomes \\?\UNC\Volume{...}. Proved: the text for every accepted name, and idempotence for all names that do not start with Volume{. |
| C84 | Windows: GetAbsoluteFilename resolves names on their volume | R | Prop_WinAbs | `C84_absolute`, `C84_relative`, `C84_relative_cwd`, `C84_share_refuted`, `C84_root_refuted`, `C84_dotdot_refuted`, `C84_drive_relative_refuted` | REFUTED: on the network '..' leaves the share; the root of a drive without trailing backslash is the bare drive; a first component '..' is kept; 'C:a' is taken for a volume. Proved for all names with a drive or host and a path from its root, and for all names without volume whose first component is neither '.' nor '..', from a base or current directory without dot components. |
| C85 | Windows: a file transfers at its position and reports how much | R | Prop_WinFile | `C85_tracks`, `C85_modes`, `C85_write_refuted`, `C85_read_refuted`, `C85_reachable_refuted` | REFUTED: sizes are cut to 32 bits, so writing 2^32 bytes returns true with nothing written and reading 2^32 bytes gives none. C85_tracks: as stated for every sequence of operations in which less than 2^32 bytes are transferred at once. |
| C86 | Windows: Dir::Read delivers every name that fits | R | Prop_WinFile | `C86_visits`, `C86_fits`, `C86_exact_refuted`, `C86_other_name_refuted` | REFUTED: a buffer into which the name just fits is refused, with no way to go on; a name that does not fit can come out shortened, with success. C86_visits: all names with one byte to spare. C86_fits: never outside the buffer. |
| C87 | Windows: file times are converted without loss | R | Prop_WinFile | `C87_seconds`, `C87_before_1970_refuted`, `C87_set`, `C87_copy`, `C87_copy_refuted` | REFUTED: every time before 1970 becomes one in the far future, and Copy drops the last digit of the time. Proved: exact from 1970 on; setting a time is exact; Copy keeps the time to the microsecond. |
| C89 | Windows: Readlink returns the target of the link | R | Prop_WinFile | `C89_alone`, `C89_joined_refuted`, `C89_empty_refuted`, `C89_outside_refuted` | REFUTED: offset and length in bytes are used as numbers of words. With the other name behind the target the result is both joined; with the same text before it, it is empty; longer ones read outside the array. C89_alone: right if only the target is stored, at the start, and the buffer is large enough for it and as many zeros. |
| C90 | Windows: Chmod makes a file writable or read-only | R | Prop_WinFile | `C90_chmod`, `C90_directory`, `C90_stat`, `C90_refuted` | REFUTED: permissions to execute count as permission to write, and mode 0 leaves the file writable. C90_chmod: every attribute for every mode; C90_stat. |
| C88 | Windows: recursive Rmdir removes the directory and nothing else | R | Prop_WinDir | `C88_removes`, `C88_all`, `C88_link`, `C88_absolute`, `C88_readonly_refuted` | REFUTED as stated: a read-only file (or an entry whose full name is longer than 8190 units) stays, with the directories on the way to it (C88_readonly_refuted). C88_removes gives the exact effect for every tree: precisely the clearable entries are gone, all else is unchanged; C88_all: everything goes if nothing is read-only or too long; C88_link: a directory link is removed, not followed; C88_absolute joins it with the resolution of names of C84. |
| C91 | Windows: the wide file name is the whole name | R | Prop_WinDir | `C91_wide`, `C91_short_refuted` | REFUTED: with a buffer that is too small the call returns true and the name is cut off without a terminator (C91_short_refuted, for every ASCII name). C91_wide: the exact result whenever it fits. |
| C92 | Windows: recursive Mkdir makes exactly the missing directories | P | Prop_WinDir | `C92_creates`, `C92_keeps` | C92_creates: the exact effect and result; C92_keeps: nothing that exists is changed, for every tree and name. The name must have an absolute form (see C84). |
| C93 | A timed wait has exactly the deadline that was asked for | P | Prop_Time | `C93_deadline`, `C93_waits`, `C93_ends` | C93_deadline: the time handed to pthread_cond_timedwait; C93_waits: what the loop around it does for every sequence of wake-ups; C93_ends. That reading the clock can fail is C78. |
| C94 | A reader-writer lock waits at most its timeout | R | Prop_Time | `C94_bounded`, `C94_gives_back`, `C94_forever`, `C94_free`, `C94_refuted`, `C94_try_refuted`, `C94_clock_refuted` | REFUTED: elapsed time is taken in seconds but subtracted as milliseconds, so for every timeout each call can block almost twice as long (C94_refuted); with a timeout of 0 a free lock is refused when the second changes (C94_try_refuted), and setting the clock back makes any call fail (C94_clock_refuted). C94_bounded: at most twice (Windows readers: three times) the timeout; C94_free, C94_forever, C94_gives_back hold. |
| C95 | The microsecond clock is exact | P | Prop_Time | `C95_windows`, `C95_before`, `C95_posix` | C95_windows, C95_posix; C95_before: what Windows clocks set before 1970 give. The number of days between 1601 and 1970 is calculated from the leap year rule. |
| C96 | The parts of a synchronisation object do not overlap | P | Prop_Layout | `C96_laid_out`, `C96_huge`, `C96_fits` | C96_laid_out for all sizes and kinds; C96_fits: the sizes do not wrap below 2^64; C96_huge: for shared memory within a few bytes of 2^64 they do, and nothing is allocated. |
| C97 | The parts of a synchronisation object are properly aligned | R | Prop_Layout | `C97_aligned`, `C97_int`, `C97_refuted` | REFUTED: the alignment size is that of an int (C97_int), so on 64-bit Linux the mutex of every named object and the event of every reader-writer lock is misaligned (C97_refuted). C97_aligned: everything is aligned if the alignment size is a multiple of each requirement. |
| C98 | SharedMem::First tells whether Create made the object | R | Prop_Layout | `C98_windows`, `C98_once`, `C98_refuted`, `C98_ever` | REFUTED on POSIX: the flag is never reset (C98_refuted; C98_ever says what it means). C98_windows: holds on Windows; C98_once: holds for the first Create. |
| C99 | Windows: shared memory has the size asked for | R | Prop_Layout | `C99_small`, `C99_refuted` | REFUTED: for every size from 4 GiB on fewer bytes are mapped than GetSize() says (C99_refuted). C99_small: below that all are. |
| C100 | Windows: reader-writer locks exclude | P | Prop_WinRW | `C100_excludes`, `C100_available`, `C100_shared`, `C100_unchecked` | C100_excludes (failing calls included), C100_available and C100_shared; the only assumption is that threads unlock what they hold, and C100_unchecked shows that the code does not check it. |
| C101 | Windows: mutexes exclude, and survive a thread that ends | R | Prop_WinMutex | `C101_excludes`, `C101_returns`, `C101_available`, `C101_refuted`, `C101_reuse_refuted` | REFUTED when threads end: the Lock after an abandoned mutex says false but keeps the Windows mutex, which no other thread ever gets again (C101_refuted); and a new thread with the number of one that ended gets in beside another (C101_reuse_refuted). While no thread ends: C101_excludes, C101_returns, C101_available, up to 2^32 nested locks. |
| C102 | Windows: Realpath gives long names | R | Prop_WinReal | `C102_long`, `C102_given`, `C102_refuted` | REFUTED: if the last component fits as given but not under the name it is stored under, the terminator is written behind the local array (C102_refuted, for every ASCII name of that kind). C102_long, C102_given: right in all other cases with ASCII names, and for all names while every path on the way fits. Links are not modelled. |
| C103 | A copy has the attributes of its source | R | Prop_Attr | `C103_root`, `C103_own`, `C103_refuted` | REFUTED: the fraction of the second of the modification time is lost, and for users other than root the owner stays that of who copies (C103_refuted). C103_root: everything else for root; C103_own: what other users get. |
| C104 | A copy runs as nobody else than its source | R | Prop_Attr | `C104_root`, `C104_only`, `C104_refuted` | REFUTED: when somebody who is not root copies a set-user-ID program of somebody else, chown fails, its result is ignored, and chmod sets the bit on a file of who copied (C104_refuted; same for groups). C104_root, C104_only hold. |
| C105 | Chown and Chgrp find owners and groups by name | R | Prop_Attr | `C105_owner`, `C105_group`, `C105_refuted` | REFUTED for Chgrp: it looks the name up among the users (C105_refuted). C105_owner: Chown is right; C105_group: what holds for Chgrp. |
| C106 | SetFileTimes sets the times that are given | R | Prop_Attr | `C106_times`, `C106_may`, `C106_refuted` | REFUTED: a time that is not given loses its fraction of a second (C106_refuted). C106_times, C106_may: everything else. |
| C107 | Windows: Delete deletes the file or leaves it alone | R | Prop_WinMove | `C107_deletes`, `C107_all`, `C107_refuted` | REFUTED: a file that cannot be deleted has lost its attributes (C107_refuted). C107_deletes, C107_all: everything else. |
| C108 | Windows: Copy copies the file or changes nothing | P | Prop_WinMove | `C108_copies`, `C108_fails`, `C108_itself` | C108_copies, C108_fails (if the attributes can be set back), C108_itself. The time of the copy is C87. |
| C109 | Windows: Move moves the file | R | Prop_WinMove | `C109_never_lost`, `C109_gone`, `C109_refuted` | REFUTED: a read-only file that is moved onto an existing one is copied and stays, and true is returned (C109_refuted). C109_never_lost: no contents are ever lost, whatever fails; C109_gone: the name is gone otherwise. |
| C110 | Windows: directory helpers stay inside the caller's buffer | R | Prop_WinAppInfo | `C110_inside`, `C110_temp_inside`, `C110_temp_refuted` | REFUTED for GetTempStorageDir: it passes the length of the path as the size of the buffer, so every plain path longer than the buffer is written behind its end (C110_temp_refuted). C110_temp_inside: not otherwise; C110_inside: the others never. |
| C111 | Windows: directory helpers deliver the directory or fail | R | Prop_WinAppInfo | `C111_storage`, `C111_temp`, `C111_unknown`, `C111_exact_fit_refuted`, `C111_skipped_refuted`, `C111_temp_refuted` | REFUTED: exact fits are refused (C111_exact_fit_refuted); a last character that does not fit is left out and the rest delivered with true (C111_skipped_refuted); a temporary path with two or more bytes of non-ASCII surplus loses characters in buffers of any size (C111_temp_refuted). C111_storage, C111_temp, C111_unknown: exact in all other cases. |
| C112 | Windows: GetExecutableFilename delivers the whole name or fails | R | Prop_WinAppInfo | `C112_exact`, `C112_long`, `C112_failed_refuted`, `C112_skipped_refuted` | REFUTED: true with an empty name when Windows fails (C112_failed_refuted), true with the name of another file when a character does not fit (C112_skipped_refuted). C112_exact, C112_long: right for names that fit, and for plain names that do not. |
| C113 | Windows: random blocks are filled completely | R | Prop_WinRandom | `C113_filled`, `C113_large_refuted`, `C113_nothing_refuted` | REFUTED from 4 GiB on: only the size modulo 2^32 is filled (C113_large_refuted), for exactly 4 GiB nothing at all (C113_nothing_refuted), and true is returned. C113_filled: below that complete. |
| C114 | Windows: volume names become drive letters | R | Prop_WinVolume | `C114_never_refuted`, `C114_cut_refuted` | REFUTED twice: the code looks for values named \DosDevice\..., which are called \DosDevices\..., so no volume is ever resolved (C114_never_refuted); if one were, four bytes too few would be moved and the result be another name, or too many if the path is shorter than two characters (C114_cut_refuted, exact result for all names). Names that are not resolved: C83_text. |
| C115 | Windows: names are cut into volume, path, file name and extensions | P | Prop_WinVolume | `C115_parts`, `C115_all` | C115_parts, for every name (C115_all). |
| C116 | Synchronisation objects release everything they acquire, exactly once | R | Prop_Life | `C116_posix`, `C116_shared`, `C116_win`, `C116_win_rw`, `C116_win_shared`, `C116_win_shared_refuted`, `C116_win_mutex`, `C116_win_mutex_refuted`, `C116_mutex`, `C116_mutex_refuted` | REFUTED for the mutex on both platforms: Create on a mutex that exists and nobody holds loses the old block, mapping or handle (C116_mutex_refuted, C116_win_mutex_refuted), and for shared memory on Windows: a Create that fails loses a block (C116_win_shared_refuted). Exactly how much is lost: C116_mutex, C116_win_mutex, C116_win_shared. Everything else loses nothing: C116_posix, C116_shared, C116_win, C116_win_rw. |
| C117 | An object whose last Create did not succeed cannot be used | R | Prop_Life | `C117_posix`, `C117_win`, `C117_win_rw`, `C117_win_rw_refuted`, `C117_win_mutex`, `C117_mutex_refuted` | REFUTED for the mutex on POSIX: Lock uses pointers that were never set, or are stale (C117_mutex_refuted), and for the reader-writer lock on Windows: it can be locked for writing after Create has failed (C117_win_rw_refuted; exact answers: C117_win_rw). C117_posix, C117_win, C117_win_mutex: the others. |
| C118 | Mutexes of one name are one lock for as long as any of them exists | R | Prop_Life | `C118_excl`, `C118_answers`, `C118_refuted` | REFUTED: a thread that creates a named mutex again while it holds it leaves the lock taken for ever (C118_refuted). C118_excl: never two holders, for all sequences of calls; C118_answers: all answers right for sequences without that, without destroying a mutex another thread holds, and with Create before Lock. Calls are taken one after the other here (interleavings: C40, C41). |
| C119 | Replacing text in a string variable replaces exactly the occurrences | R | Prop_ReplaceIn | `C119_longer`, `C119_in_place`, `C119_apart`, `C119_same_length`, `C119_overlap_refuted`, `C119_one_is_enough_refuted`, `C119_blank_refuted`, `C119_strings` | REFUTED: a replacement shorter than the pattern is made inside the block with memcpy between regions that overlap (C119_overlap_refuted gives exactly when; C119_one_is_enough_refuted a common case), and on a variable without a string the terminator is written through NULL (C119_blank_refuted). C119_longer, C119_same_length, C119_apart: right otherwise; C119_in_place: always right where memcpy behaves like memmove; C119_strings: the same for strings. The allocator is not part of this model. |
| C120 | A mixed variable knows the kind of what was last put into it and keeps its numbers | R | Prop_Mode | `C120_kind`, `C120_integers`, `C120_double`, `C120_determined`, `C120_built_text_refuted` | REFUTED for text that is built up: a variable that only had text appended or prepended does not say it is a string (C120_built_text_refuted). C120_kind, C120_integers, C120_double: everything else, C120_determined. |
| C121 | An Open that succeeds does what its flags say | R | Prop_Open | `C121_posix`, `C121_windows`, `C121_readonly_trunc_refuted` | REFUTED on Windows for O_RDONLY with O_TRUNC: Open succeeds, the file is unchanged and the object says it is empty (C121_readonly_trunc_refuted). C121_posix, C121_windows: everything else. |
| C122 | An Open that fails changes nothing | R | Prop_Open | `C122_windows`, `C122_posix`, `C122_emptied_refuted`, `C122_created_refuted` | REFUTED on POSIX: an Open that the lock refuses has already emptied the file (C122_emptied_refuted), and with an invalid share flag it has created it (C122_created_refuted). C122_windows: always on Windows; C122_posix: on POSIX without O_TRUNC. |
| C123 | Objects have a file open together exactly if their share flags allow it | R | Prop_Open | `C123_windows`, `C123_windows_exact`, `C123_posix`, `C123_posix_lock`, `C123_readers_refuted`, `C123_left_open_refuted` | REFUTED on POSIX: two readers that let others read are refused (C123_readers_refuted), and a refused object stays open beside one that shares nothing (C123_left_open_refuted). C123_windows, C123_windows_exact: holds on Windows; C123_posix, C123_posix_lock: the objects whose Open succeeded allow each other on POSIX. |
| C124 | In append mode writing only ever adds to the end of the file | R | Prop_Append | `C124_posix`, `C124_kept`, `C124_windows`, `C124_seek_refuted`, `C124_others_refuted` | REFUTED on Windows: O_APPEND is only a seek at Open, so a Write after a Seek goes over existing bytes (C124_seek_refuted), and so does one after somebody else appended (C124_others_refuted). C124_posix: holds on POSIX without interrupted calls, C124_kept: nothing is lost with them; C124_windows: holds on Windows for an object that is alone and does not seek. |
| C125 | In append mode the position after a write is the end of the file | R | Prop_Append | `C125_windows`, `C125_posix`, `C125_position_refuted`, `C125_read_refuted`, `C125_seek_refuted` | REFUTED on POSIX: after the first Write to a file that was not empty GetCurrPos and GetMaxPos are wrong (C125_position_refuted), Read finds nothing where GetCurrPos is below the size (C125_read_refuted), Seek to the end goes elsewhere (C125_seek_refuted). C125_posix: right once the object is at the end; C125_windows: right on Windows for an object that is alone and does not seek. |
| C126 | Semaphores and events behave the same on both platforms | R | Prop_Kernel | `C126_same`, `C126_size_refuted`, `C126_zero_refuted`, `C126_wrap_refuted`, `C126_unlock_refuted`, `C126_reset_refuted`, `C126_names_refuted`, `C126_left_locked_refuted` | REFUTED: the platforms differ for a size that is not positive (C126_size_refuted; on POSIX size 0: C126_zero_refuted, size -1, where an unlock empties the full semaphore: C126_wrap_refuted), for unlocking a semaphore that is not locked (C126_unlock_refuted), Reset of an automatic event (C126_reset_refuted), one name for two kinds (C126_names_refuted), and a name taken again after the last object was destroyed while locked (C126_left_locked_refuted). C126_same: in all other sequences of calls all answers are the same. |
| C127 | File::Stat on Windows describes the file | R | Prop_WinStat | `C127_type`, `C127_rights`, `C127_executable`, `C127_size`, `C127_drive`, `C127_drives`, `C127_fails`, `C127_identity_refuted`, `C127_host_refuted`, `C127_follow_refuted` | REFUTED: links are not followed (C127_follow_refuted), any two names on one drive have the same st_dev and st_ino (C127_identity_refuted), and files of other computers have those of drive A: (C127_host_refuted). C127_type, C127_rights, C127_executable, C127_size, C127_drive, C127_drives, C127_fails: the rest holds. |
| C128 | File::Symlink on Windows makes a working link to an existing target | R | Prop_WinStat | `C128_absolute`, `C128_relative_refuted`, `C128_kind_refuted`, `C128_nothing_refuted` | REFUTED: relative targets of the usual form are always refused (C128_relative_refuted), others are looked for in the wrong place, so that a file gets a directory link (C128_kind_refuted) and a link is made to nothing (C128_nothing_refuted). C128_absolute: holds for targets named from the root. |
| C129 | File::Realpath on Windows follows links | R | Prop_WinLinks | `C129_ends`, `C129_plain`, `C129_absolute`, `C129_below_refuted`, `C129_alone`, `C129_relative_refuted`, `C129_up_refuted`, `C129_joined_refuted`, `C129_wrong_refuted` | REFUTED: relative links that lead below the place of the link as the code sees it are not followed, whatever there is (C129_below_refuted, C129_relative_refuted, C129_up_refuted), nor are absolute ones with a print name stored behind the text (C129_joined_refuted); with it stored in front a wrong file is given (C129_wrong_refuted). C129_ends: it ends. C129_plain: without links it is the function of C102. C129_absolute, C129_alone: a link whose text is absolute and stored alone is followed. |
| C130 | Calls on a reader-writer lock wait only for threads that hold it | R | Prop_Progress | `C130_ends`, `C130_win_ends`, `C130_waits`, `C130_win_waits`, `C130_win_full_refuted` | REFUTED on Windows with LONG_MAX read locks out: a reader that waits for one more keeps the counter's mutex, so that ReadUnlock waits for ever, too (C130_win_full_refuted). Proved otherwise on both platforms: C130_ends, C130_win_ends (at most six steps per thread), C130_waits, C130_win_waits (when nobody can go on, the lock is held and nobody is unlocking). |
| C131 | A writer that waits is not overtaken | R | Prop_Progress | `C131_next`, `C131_win_next`, `C131_overtaken_refuted`, `C131_win_overtaken_refuted` | REFUTED: until a writer has got the first semaphore, readers that come later can overtake it any number of times (C131_overtaken_refuted, C131_win_overtaken_refuted). C131_next, C131_win_next: from then on nobody gets in before it. |
| C132 | A call on a mutex waits only for another thread that holds it | R | Prop_MxProgress, Prop_WinMxProgress | `C132_ends`, `C132_waits`, `C132_self_refuted`, `C132_win_ends`, `C132_win_waits` | REFUTED on POSIX: a thread that has locked a mutex and locks it through another object of the same name waits for itself (C132_self_refuted). C132_win_ends, C132_win_waits: holds on Windows, as long as no thread ends. C132_ends (at most five steps per thread), C132_waits: on POSIX else it waits for another thread that holds the mutex. |
| C133 | The calls on files and on directories take a name to be the same place | R | Prop_Where | `C133_same`, `C133_no_links`, `C133_link_refuted`, `C133_root_refuted`, `C133_exists`, `C133_dot_refuted` | REFUTED: the calls on directories resolve '..' in the text, so through a link Rmdir removes another directory than Stat describes (C133_link_refuted, for every such link); Dir::Open never opens the root (C133_root_refuted); names that begin with './' are refused (C133_dot_refuted). C133_exists: what Exists says; C133_same: the same place for all names without '..' in all trees with links; C133_no_links: with '..' in trees without links. |
| C134 | A link made by File::Symlink can be used under the name it was given | R | Prop_Where | `C134_usable`, `C134_refused_refuted`, `C134_backslash_refuted` | REFUTED: Symlink takes names as they are: with a character the other calls refuse the link can never be removed again (C134_refused_refuted), with a backslash Delete removes another file (C134_backslash_refuted). C134_usable: right for all other names. |
| C135 | File::Realpath gives the path of the file without links | R | Prop_Where | `C135_same`, `C135_exactly`, `C135_backslash_refuted` | REFUTED for names with a backslash, which all other calls take for a slash (C135_backslash_refuted). C135_same, C135_exactly: the rest holds for all trees, names and sizes. |
| C136 | Windows: Dir::Open opens the directory that is named | R | Prop_WinFind | `C136_absolute`, `C136_relative`, `C136_dots_refuted` | REFUTED for '.', '..' and names that begin with them, which are refused (C136_dots_refuted). C136_absolute, C136_relative: right for all other names, in any alphabet. |
| C137 | Named objects come through the end of processes that use them | R | Prop_NamedDie | `C137_ends`, `C137_survives`, `C137_ended_inside_refuted`, `C137_mmap_refuted`, `C137_left_refuted` | REFUTED: if a process ends inside Create or the destructor, no Create of this name ever returns again, for all states and continuations (C137_ended_inside_refuted); the same after one failure of mmap (C137_mmap_refuted); a process that ends with the object open is counted for ever, so that the object is never made anew (C137_left_refuted). C137_survives, C137_ends: all calls finish as long as processes end only outside of calls and somebody keeps the object open. |
| C138 | A queue that must not be copied is not copied | R | Prop_QueueShare | `C138_refuted`, `C138_empty` | REFUTED: the private constructor is declared for another class, so C++ copies the members; for all histories, if the queue is not empty, destroying it and the copy, in either order, uses deleted nodes (C138_refuted). C138_empty: harmless for empty queues. |
| C139 | Appending a container to itself loses nothing | R | Prop_SelfAppend | `C139_list_refuted`, `C139_queue_refuted`, `C139_empty`, `C139_empty_queue` | REFUTED: whatever the history, a list or queue that is not empty is empty afterwards, and its nodes stay allocated as a ring that no container holds (C139_list_refuted, C139_queue_refuted). C139_empty, C139_empty_queue: empty ones are unchanged. |
| C140 | Libraries are loaded while they are used and closed exactly once | R | Prop_LibLife | `C140_safe`, `C140_kept`, `C140_gone`, `C140_outlive_refuted`, `C140_copy_refuted` | REFUTED for copies: ModuleUtil can be copied, and the object and its copy close the library twice (C140_copy_refuted); and for function objects that outlive their library object (C140_outlive_refuted), in both cases after every history. C140_safe, C140_kept, C140_gone: all other programs are safe, and the counts are exact. |
| C141 | A recursive Rmdir removes nothing outside of its directory, whatever other processes do | R | Prop_DirRace | `C141_alone`, `C141_only_below`, `C141_race_refuted` | REFUTED: a process that may only write inside of the directory can make Rmdir remove files elsewhere, by replacing a directory by a link between lstat and opendir (C141_race_refuted). C141_only_below: true for all interleavings with others that make no links there. C141_alone: undisturbed it is the Rmdir of C59. |
| C142 | Processes that make the same directories at the same time do not get in each other's way | R | Prop_MkdirRace | `C142_alone`, `C142_keeps`, `C142_only_way`, `C142_made`, `C142_one`, `C142_winner`, `C142_false_refuted`, `C142_removed_refuted` | REFUTED in the last part: a call for a directory that was missing when it began may return false, because another process made it on the way to one below (C142_false_refuted); and if others remove empty directories, a call may fail without making anything (C142_removed_refuted). C142_keeps, C142_only_way, C142_made, C142_one, C142_winner: the rest is true for all interleavings with others that remove nothing. C142_alone: undisturbed it is the Mkdir of C75. |
| C143 | A copy can be read by those only who can read the source | R | Prop_Secret | `C143_same`, `C143_root`, `C143_fresh`, `C143_over`, `C143_over_refuted`, `C143_group_refuted`, `C143_kept_refuted` | REFUTED: the destination keeps its old rights, or has the group of new files, while the contents are written (C143_over_refuted, C143_group_refuted), and for users other than root and the owner also afterwards (C143_kept_refuted). C143_fresh, C143_over: true at every moment for new files of the same group or with equal rights for group and others, and over files with the same owner and group and no more rights. C143_root: true for root when the copy is finished. C143_same: the end is that of C103. |
| C144 | Dir::Getcwd gives the current directory (Windows) | R | Prop_WinCwd | `C144_exact`, `C144_inside`, `C144_long_refuted`, `C144_full_refuted`, `C144_cut_refuted`, `C144_signed_refuted` | REFUTED: a directory of 8192 units or more gives whatever the array on the stack held (C144_long_refuted), one of exactly 8192 bytes makes it read past that array (C144_full_refuted), a last character without room is left out (C144_cut_refuted), and where char is signed directories with characters beyond ASCII are never given (C144_signed_refuted). C144_exact: right for all others; C144_inside: memory-safe for them. |
| C145 | Copy changes its destination only, whatever others do | R | Prop_CopyRace | `C145_alone`, `C145_works`, `C145_only`, `C145_contents`, `C145_attrs_refuted`, `C145_rights_refuted` | REFUTED: owner, rights and times are set by name after the file was closed, so whoever can change what the destination's name stands for makes a copying root give any file to the owner of the source (C145_attrs_refuted); and the attributes are read by name before the source is opened, so whoever can change what the source's name stands for gets a readable copy of any file (C145_rights_refuted). C145_only: files that the destination's name never stands for stay as they are, in all interleavings; C145_contents: one file is read and one written, right up to C54. C145_alone, C145_works: undisturbed it is the Copy of C103. |
| C146 | The thread-local allocator serves any number of threads | R | Prop_TlsThreads | `C146_serves`, `C146_compatible`, `C146_overflow_refuted`, `C146_late_refuted` | REFUTED for blocks freed elsewhere: if a thread that caches this size frees a block of a thread that does not, and the block is smaller than a list node, it is written to past its end (C146_overflow_refuted: for all such sizes); and a block freed after ThreadEnd stays allocated (C146_late_refuted). (The header advises against both.) C146_serves: for any number of threads and calls everything else holds, also for blocks freed by other threads with compatible caches; C146_compatible: which these are. realloc and dup_malloc are not part of this model (C49). |
| C147 | An interrupted Copy or Move leaves old or new contents | R | Prop_MoveSteps | `C147_not_lost`, `C147_source`, `C147_empty_refuted`, `C147_mixed_refuted` | REFUTED for the destination: there is always a moment when a new copy is there and empty (C147_empty_refuted), and over an old file one when the first 8192 bytes are new and the others old (C147_mixed_refuted). C147_not_lost: at every moment of Move the source is unchanged or the destination has its contents (up to C54), if writes succeed; C147_source: Copy never touches the source or a file other than the destination. What a crash of the machine does to writes not yet on the disk is not modelled. |
| C148 | Windows: named objects of different classes or names have nothing in common | R | Prop_WinNames | `C148_exact`, `C148_apart`, `C148_same`, `C148_kinds_refuted`, `C148_rw_refuted` | REFUTED across classes: mutexes, semaphores and events take the caller's name as it is, so that of these at most one class can use a name (C148_kinds_refuted: for every name; on POSIX they are apart, C47_distinct), and some semaphore is the inner one of any given reader-writer lock (C148_rw_refuted). C148_exact: all cases in which objects meet (sizes count modulo 2^32), no write outside an array; C148_apart: objects that do not meet have no effect on each other; C148_same: objects of one class, name and size have all handles in common. |
| C149 | Recursive Mkdir works with every mode | R | Prop_MkdirMode | `C149_makes`, `C149_refuted` | REFUTED: with a mode (less the mask) that does not let the owner write and search, and two or more directories missing, anyone but root gets exactly the first one and false (C149_refuted: for every such mode, mask and name; the mkdir command adds these two rights on the way). C149_makes: with every other mode, and for root, all are made with exactly the rights asked for, and the others stay. |
| C150 | Recursive Rmdir is not limited by open files | R | Prop_RmdirFds | `C150_enough`, `C150_stays`, `C150_refuted` | REFUTED: each level keeps its directory open while the next one is emptied. C150_stays: for every tree, name and limit n, if anything lies more than n levels below the directory, the result is false, and all that lies that deep stays with the directory itself (entries higher up may be gone). C150_refuted: for every n there is such a tree. C150_enough: if nothing lies deeper than n levels below it, n open directories are enough, under the conditions of C59_removes; so the limit is exact. |
| C151 | Apple: GetExecutableFilename reports the running executable or fails | R | Prop_MacAppInfo | `C151_executable`, `C151_inside`, `C151_empty_refuted`, `C151_argv0_refuted`, `C151_wrong_refuted` | REFUTED: with BufferSize 0 the length of the buffer's text is read all the same (C151_empty_refuted: always); proc_pidpath gives 0, not -1, when the path does not fit, and then Argv0 is taken for the executable (C151_argv0_refuted: for every path too long for the buffer; C151_wrong_refuted: another file's name is returned with true). C151_executable: if the path fits, the result is exactly that path resolved, or false. C151_inside: buffers of one byte or more are not left. Assumes that system has no /proc. |
| C152 | The user's directory is found or refused | R | Prop_UserDir | `C152_delivers`, `C152_none`, `C152_refuted`, `C152_inside_iff` | REFUTED: without HOME and without an entry in the password database (common in containers) the null pointer getpwuid gives is followed (C152_refuted: for every buffer and application name). C152_delivers: else the directory is made from HOME, or from the entry. C152_none: an entry without directory gives false. C152_inside_iff: exactly when the call is safe. |
| C153 | A named mutex excludes processes that fork | R | Prop_MutexFork | `C153_excludes`, `C153_returns`, `C153_refuted`, `C153_destructor_refuted` | REFUTED: the owner is known by pthread_self() only, which is the same in a forked process, and that process has a copy of the count. C153_refuted: from every state in which a process holds the mutex, a process it forks gets it at once. C153_destructor_refuted: if the new process only ends, its destructor frees the mutex, and any other process gets it while the holder holds it. C153_excludes, C153_returns: if processes fork only while they do not hold the mutex, at most one holds it and the results are right, for all sequences. One thread per process, calls are one step each (C41_atomic). |
| C154 | A mutex survives a thread that ends | R | Prop_MutexEnd | `C154_excludes`, `C154_stuck_refuted`, `C154_reused_refuted` | REFUTED: C154_stuck_refuted: from every state in which a thread holds the mutex and ends, no Lock returns true any more in any continuation, unless a new thread gets its identifier. C154_reused_refuted: and if one does, it has the mutex without asking, and its Unlock returns true though it has not locked. C154_excludes: at most one living thread holds the mutex, in all executions. Calls are one step each (C41_atomic). |
| C155 | A named object keeps its contents while it is in use, also across fork | R | Prop_NamedFork | `C155_kept`, `C155_refuted` | REFUTED: fork does not raise the count of users, but the new process lowers it when it closes the object. C155_refuted: from every state in which a process has the object open, after some forks of it whose new processes close the object, the next Create clears the object, while that process has it open. C155_kept: if processes fork only while they do not have it open, it is made anew only when nobody has it open, for all sequences. Calls are one step each (interleavings: C46). |

## What is modelled, and what is not

The line numbers are those of the pinned commit. "Not modelled" names code in the same file that no theorem speaks about.

| source | model | simplifications and limits | not modelled |
|--------|-------|---------------------------|--------------|
| convert/convert_int.cpp | M_ConvertInt | sizes are naturals; radix and digits as in the code | nothing |
| json/json_serializer.{h,cpp} | M_Json | sums of positions and sizes do not wrap; AppendDouble takes the text snprintf produced | the floating-point formatting itself |
| utf8/utf8_util.cpp | M_Utf8 | wchar of 1, 2, 4 bytes; allocation never fails | IsCombiningCodePoint tables are used as data only |
| utf8/utf8_mixed_var.h, templates/static_mixed_var.h | M_MixedVar (text), M_Mode (kind and numbers) | floating-point numbers are only stored and returned | double formatting |
| templates/detachable_list_util.h | M_Dll, M_List | `new` never fails; node addresses are naturals | iterators of the header-only wrappers |
| templates/detachable_queue_util.h | M_Queue, M_QueueShare (copies of a QueueNoCopy) | as above; that the implicit copy constructor exists is read off the language rules, not proved | |
| templates/detachable_ordered_hash(_util).{h,cpp} | M_Hash, M_HashFn | hash function abstract in the container theorems (so they hold for both); words are read byte-wise, alignment ignored; little-endian | |
| templates/packed_ordered_hash(_util).{h,cpp} | M_Packed | as above; node array below 2^31 elements | |
| templates/cache(_util).{h,cpp} | M_Cache, M_HashFn | key equality abstract | |
| templates/static_vector.h, static_2d_array.h | M_Vec, M_Arr2 | one heap for all objects, `new` never fails; elements are values | `Static2DArray::operator==` (compares an element with a pointer, does not compile when used) |
| templates/fast_find_replace_util.h | M_Find | sizes do not wrap; comparison function abstract; FastReplace into a result buffer that does not overlap the source | |
| templates/shared_lib(_util).h | M_SharedLib, M_LibLife (how long libraries stay loaded) | dlopen/dlsym/functions abstract and time-dependent; M_LibLife: a handle is the library, the system counts openings | arguments and results of the calls on Windows |
| security/security_csprng.cpp | M_Random, M_WinRandom | the device is a stream of read results; on Windows the generator is a function from the number of bytes asked for | finding the generator (Windows, 12-16) |
| sync/sync_tls.cpp | M_Tls, M_TlsThreads (several threads), M_TlsVar, M_ReplaceIn (ReplaceData, ReplaceStr without the allocator), M_Mode | one thread (any number in M_TlsThreads, without realloc and dup_malloc), one TLS object; the cached blocks of a class are a sequence of block numbers (the queue itself is C19); malloc/realloc of the C library abstract, may fail or move at any time | text of doubles |
| sync/sync_util.cpp | M_Sem, M_Event, M_Name, M_Named, M_NamedDie, M_NamedFork (processes that fork, one step per call), M_Time, M_Layout | sequentially consistent memory; code between lock and unlock of the internal mutex is one step; pthread calls by their POSIX contract (spurious wake-ups, timeouts, failures, wake-ups eaten by a timeout); processes do not die and mmap succeeds, except in M_NamedDie; one object of one size; the deadline of a timed wait and the layout of objects are separate (M_Time, M_Layout) | nothing |
| sync/sync_mutex.cpp, sync_readwritelock.cpp | M_Mutex, M_RW (POSIX), M_MutexFork (a named mutex in processes that fork, one thread each, one step per call), M_MutexEnd (a mutex and threads that end, one step per call), M_WinMutex, M_WinRW (Windows), M_Time (timeouts, both platforms) | semaphores and events are the atomic ones (justified by C42_atomic and C44_atomic); threads do not end (but do in M_WinMutex and M_MutexEnd); calls of Windows objects are atomic; objects are created before and destroyed after the execution; their life (Create, destructors, checks) is M_Life, where calls come one after the other | |
| sync/sync_semaphore.cpp, sync_event.cpp, sync_sharedmem.cpp | through M_Sem, M_Event, M_Named; M_Layout (SharedMem, both platforms), M_Life (Create, destructors), M_Kernel (semaphores and events on both platforms), M_WinNames (names of kernel objects, all five classes) | the classes only forward to sync_util.cpp; M_Kernel: calls come one after the other and do not wait, system calls by their documentation | |
| environment/environment_appinfo.cpp | M_Time | | GetCurrentProcessID, GetCurrentThreadID |
| utf8/utf8_file_dir.cpp (POSIX) | M_File, M_Line, M_Path, M_Dir, M_DirRace (Rmdir among other processes), M_MkdirRace (Mkdir in several processes), M_MkdirMode (Mkdir with owners and rights), M_RmdirFds (Rmdir with a limit on open directories), M_Attr, M_Secret (who may read a copy), M_CopyRace (Copy among other processes), M_MoveSteps (Move one system call at a time), M_Open (several objects, one file), M_Append, M_Where (Stat, Delete, Symlink, Readlink, Realpath on a tree with links) | one regular file nobody else changes, sizes below 2^62; lseek/fstat do not fail; directories are read as they were when opened; no permissions; link targets absolute; attributes (M_Attr) are those of one existing regular file, system calls by their POSIX contract; char may be signed or not (both proved) | realpath, stat and symlink fail only for want of the file |
| utf8/utf8_file_dir.cpp (Windows) | M_WinPath, M_WinFile, M_WinDir, M_WinReal, M_WinLinks, M_WinFind (the text Dir::Open searches for), M_WinCwd, M_WinMove, M_WinVolume, M_WinStat, M_Open, M_Append | names are UTF-8 bytes as in the code; the registry lookup of a volume is a function, which M_WinVolume gives; GetFullPathName is not used by this code; one file nobody else changes, SetFilePointer and GetFileSize do not fail; a reparse point is the words the system stored; a volume is a tree of files, directories and links with a read-only attribute, names are compared as stored, a directory is read as it was when FindFirstFileW was called; Realpath: FindFirstFileW is a function from a path to the stored name and the reparse point, whose header is well formed; Copy, Move and Delete: files with any number of names, no directories, every system call may fail; Stat: on the names GetPlatformFilename produced; Symlink: names are lists of components, resolved as C84 says, one volume without other links; GetCurrentDirectoryW leaves the array alone when the name is too long | what FindFirstFileW finds |
| utf8/utf8_appinfo.cpp | M_AppInfo, M_WinAppInfo, M_MacAppInfo (GetExecutableFilename on Apple systems, without /proc), M_UserDir (where the home directory comes from) | environment abstract; on Windows the wide names the system delivers | temporary paths of 8192 or more units |
| test_suite.cpp, build scripts | – | – | not library code |

Runtime behaviour no model here can exhibit: compiler-specific treatment of undefined behaviour, weak memory orders,
the real scheduler's timing, performance.

{"id": "C01", "title": "Power-of-two test is exact", "statement": "zpl_is_power_of_two(x) is true exactly when x is 1, 2, 4, ... (a non-negative power of two); zero and every negative value give false.", "quantifier": "every 64-bit signed x", "why_tests_cant": "There are 2^64 inputs; tests only sample a few.", "anchors": ["code/header/essentials/memory.h: zpl_is_power_of_two"]}
{"id": "C02", "title": "Forward alignment returns the least aligned address", "statement": "For a power-of-two alignment, zpl_align_forward and zpl_align_forward_i64 return the smallest multiple of the alignment that is not below the input, as long as that value fits the machine word; zpl_align_forward_u64 does so too. Aligning an aligned value changes nothing.", "quantifier": "every address/size and every power-of-two alignment whose result fits the word", "why_tests_cant": "Unbounded pairs of inputs, and the modular arithmetic is where off-by-one errors hide.", "anchors": ["code/header/essentials/memory.h: zpl_align_forward, zpl_align_forward_i64, zpl_align_forward_u64"]}
{"id": "C03", "title": "Byte-order swaps reverse the bytes", "statement": "zpl_endian_swap16/32/64 produce the value whose little-endian byte sequence is the reverse of the argument's; applying the swap twice gives the argument back.", "quantifier": "every 16-, 32- or 64-bit unsigned value", "why_tests_cant": "2^64 inputs.", "anchors": ["code/header/core/misc.h: zpl_endian_swap16, zpl_endian_swap32, zpl_endian_swap64"]}
{"id": "C04", "title": "memset writes exactly the requested bytes", "statement": "zpl_memset(p, c, n) sets every byte of [p, p+n) to the low byte of c, leaves every other byte of memory as it was, and never touches memory outside [p, p+n).", "quantifier": "every pointer alignment, every length and byte value, every initial memory", "why_tests_cant": "The code branches on length and on address alignment and writes overlapping words; the combinations are unbounded.", "anchors": ["code/header/essentials/memory.h: zpl_memset"]}
{"id": "C05", "title": "memmove is correct for any overlap", "statement": "After zpl_memmove(d, s, n) the n bytes at d equal the n bytes that were at s before the call, every byte outside [d, d+n) is unchanged, and only the two regions are accessed, however the regions overlap and whatever their alignments.", "quantifier": "every d, s, n and initial memory", "why_tests_cant": "Correctness depends on relative position and alignment of two regions; tests cannot cover all overlaps.", "anchors": ["code/header/essentials/memory.h: zpl_memmove"]}
{"id": "C06", "title": "memswap exchanges two regions", "statement": "zpl_memswap(i, j, n) on two non-overlapping regions exchanges their contents and changes nothing else; with i == j it does nothing.", "quantifier": "every pair of disjoint regions, every n >= 0", "why_tests_cant": "Three code paths plus a recursive chunked path of unbounded depth.", "anchors": ["code/source/essentials/memory.c: zpl_memswap"]}
{"id": "C07", "title": "memchr and memrchr find the right byte and stay in range", "statement": "zpl_memchr(p, c, n) returns the address of the first byte equal to c in [p, p+n), or NULL when there is none, reading only bytes of that range; zpl_memrchr returns the last such address.", "quantifier": "every contents, alignment, length and byte", "why_tests_cant": "The word-at-a-time scan uses a bit trick whose false positives/negatives depend on all 2^64 word values.", "anchors": ["code/source/essentials/memory.c: zpl_memchr, zpl_memrchr"]}
{"id": "C08", "title": "memcompare orders like unsigned bytes", "statement": "zpl_memcompare returns zero exactly when the two n-byte regions are equal, and otherwise a value whose sign is the order of the first differing unsigned bytes; a NULL operand yields 0.", "quantifier": "every pair of byte regions and every n", "why_tests_cant": "Unbounded inputs.", "anchors": ["code/header/essentials/memory.h: zpl_memcompare"]}
{"id": "C09", "title": "Bit utilities", "statement": "zpl_next_pow2(x) is the least power of two >= x for 1 <= x <= 2^30; zpl_count_set_bits counts the one-bits and returns for every mask. zpl_bit_set and zpl_bit_reset change exactly one bit, whereas zpl_bit_get always reports 0 for bits 8 and up because its result is narrowed to 8 bits.", "quantifier": "every 64-bit mask / every 32-bit x in range", "why_tests_cant": "2^64 inputs.", "anchors": ["code/header/core/misc.h: zpl_next_pow2, zpl_count_set_bits, zpl_bit_set, zpl_bit_get, zpl_bit_reset"]}
{"id": "C10", "title": "Arena blocks are disjoint, aligned and in bounds under one alignment", "statement": "When the buffer start is aligned and every request uses the same power-of-two alignment, every block returned by an arena is aligned, lies inside the buffer and is disjoint from all blocks handed out since the last reset, for any request history. With mixed alignments this is false: there is a history whose blocks overlap and one whose block ends past the buffer.", "quantifier": "every history of alloc/free_all/snapshot requests", "why_tests_cant": "A statement about all histories of a stateful allocator.", "anchors": ["code/source/essentials/memory_custom.c: zpl_arena_allocator_proc", "code/header/essentials/memory_custom.h: zpl_arena_init_from_memory"]}
{"id": "C11", "title": "Arena snapshots restore the allocation point", "statement": "Ending a snapshot makes the arena behave exactly as when the snapshot was taken, for any (properly nested) operations performed in between.", "quantifier": "every history between begin and end, any nesting", "why_tests_cant": "All histories.", "anchors": ["code/header/essentials/memory_custom.h: zpl_arena_snapshot_begin, zpl_arena_snapshot_end"]}
{"id": "C12", "title": "Pool hands out each block at most once", "statement": "For any history of allocate, free (of live blocks), free_all and client writes on a pool with at least one block and room for a pointer per block, live blocks are pairwise disjoint and inside the pool's memory, allocation succeeds exactly while fewer than num_blocks blocks are live (and asserts otherwise, as do requests for another size or alignment), and free_all makes all blocks available again. Blocks are aligned when the block size is a multiple of the alignment, and there is a pool (20-byte blocks, alignment 16) where they are not; a pool of zero blocks hands out a block.", "quantifier": "every alloc/free/free_all history, every pool size and alignment", "why_tests_cant": "Free-list corruption shows only after particular interleavings of frees and allocations.", "anchors": ["code/source/essentials/memory_custom.c: zpl_pool_init_align, zpl_pool_allocator_proc"]}
{"id": "C13", "title": "Stack memory is LIFO", "statement": "On a stack allocator that does not need to grow, freeing the most recent block restores the allocator to the state before that allocation, blocks are in bounds and pairwise disjoint (headers included). The returned address is only 8-byte aligned beyond the aligned header: a 16-byte alignment request is not honoured.", "quantifier": "every history of nested alloc/free within capacity", "why_tests_cant": "All histories.", "anchors": ["code/source/essentials/memory_custom.c: zpl_stack_allocator_proc", "code/header/essentials/memory_custom.h: zpl_allocation_header_t"]}
{"id": "C14", "title": "Scratch allocator overlap", "statement": "A single request on a fresh scratch buffer with room for the 8-byte header and the alignment padding returns an aligned, zeroed block inside the buffer and touches nothing outside; with alignment at most 8, releasing it makes the whole buffer available again and releasing it twice asserts; releasing NULL does nothing and releasing a pointer outside the buffer asserts. Releasing a live block whose alignment puts padding behind the header can assert (an old word is taken for the header). Scratch memory does not keep live blocks apart: two consecutive 16-byte requests return a block overwritten by the second block's header, and a request that fills the buffer exactly is answered with a block outside the buffer.", "quantifier": "existential over histories; universal over a single request", "why_tests_cant": "The disagreement arises from bookkeeping, only a model shows exactly which histories are safe.", "anchors": ["code/source/essentials/memory_custom.c: zpl_scratch_allocator_proc"]}
{"id": "C15", "title": "Default resize preserves contents", "statement": "zpl_default_resize_align returns a block holding the first min(old, new) bytes of the old block, keeps the same block when shrinking, frees and returns NULL for new size 0, and leaves the old block untouched when allocation fails.", "quantifier": "every old/new size, contents and allocator outcome", "why_tests_cant": "Includes the allocation-failure path.", "anchors": ["code/header/essentials/memory_custom.h: zpl_default_resize_align"]}
{"id": "C16", "title": "Dynamic arrays behave as sequences", "statement": "For any sequence of append, append_at (0<=i<=count), appendv, appendv_at, remove_at, pop, clear, fill, reserve, resize and set_capacity, the elements of a zpl_array equal those of the same operations on a mathematical list, count never exceeds capacity, and every element access is inside the allocation.", "quantifier": "every operation sequence within the documented index ranges, every element type size", "why_tests_cant": "Reallocation points depend on the whole history.", "anchors": ["code/header/essentials/collections/array.h: zpl_array_append, zpl_array_append_at, zpl_array_appendv, zpl_array_appendv_at, zpl_array_remove_at, zpl_array_set_capacity, zpl_array_resize, zpl_array_grow"]}
{"id": "C17", "title": "Array growth is amortised and allocation failure is reported", "statement": "Growing doubles the capacity plus eight, so after any number of appends capacity is less than 2*count+16 when started empty; when the allocator fails, append returns false and the array still holds its old elements.", "quantifier": "every number of appends, every failure point", "why_tests_cant": "A bound over all histories, including failure injection at every step.", "anchors": ["code/header/essentials/collections/array.h: ZPL_ARRAY_GROW_FORMULA, zpl__array_set_capacity, zpl_array_append"]}
{"id": "C18", "title": "Ring buffers keep the newest elements in order", "statement": "After any sequence of append/append_array/get on a ring of size n, the readable contents are the most recent (at most n) appended-but-not-read elements in order; full/empty are reported exactly.", "quantifier": "every operation history and every ring size n >= 1", "why_tests_cant": "Wrap-around positions depend on the whole history.", "anchors": ["code/header/essentials/collections/ring.h: zpl_ring append, get, full, empty, get_array"]}
{"id": "C19", "title": "Ring get_array is short by one", "statement": "get_array(max) returns at most max-1 elements even if more are available, always a prefix of the contents.", "quantifier": "every ring state and max >= 1", "why_tests_cant": "Off-by-one over all states.", "anchors": ["code/header/essentials/collections/ring.h: get_array"]}
{"id": "C20", "title": "Hash tables refine finite maps", "statement": "For any sequence of set/remove/rehash/grow/clear, get(k) returns the value most recently set for k and not removed since, and NULL otherwise; get never loops forever although collision chains are index-linked.", "quantifier": "every operation history, every 64-bit keys (including all collision patterns)", "why_tests_cant": "Collision chains depend on key arithmetic and history.", "anchors": ["code/header/essentials/collections/hashtable.h: set, get, remove, rehash, rehash_fast, grow, _find, _add_entry"]}
{"id": "C21", "title": "Hash table raw removal leaves stale links", "statement": "remove_entry without a following rehash can make get return a wrong result; after rehash_fast the table is consistent again.", "quantifier": "existential history / every history ending in a rehash", "why_tests_cant": "Only visible through history of links.", "anchors": ["code/header/essentials/collections/hashtable.h: remove_entry, rehash_fast"]}
{"id": "C22", "title": "Hash table iteration sees each entry once", "statement": "map and map_mut visit each stored key exactly once with its current value, and map_mut's updates are what later get returns.", "quantifier": "every table state, every callback", "why_tests_cant": "All states.", "anchors": ["code/header/essentials/collections/hashtable.h: map, map_mut"]}
{"id": "C23", "title": "Linked list append and remove", "statement": "Appending to the tail of a well-formed doubly linked list and removing the tail preserve well-formedness; insertion in the middle does not repair the successor's back link and there is a history of add/add/remove that drops an element that was never removed.", "quantifier": "every list / existential history", "why_tests_cant": "Pointer structure after arbitrary histories.", "anchors": ["code/header/essentials/collections/list.h: zpl_list_add, zpl_list_remove"]}
{"id": "C24", "title": "zpl_sort sorts", "statement": "For every array of at most 2^35 elements and every comparator that is a total preorder, zpl_sort terminates with a permutation of the input in comparator order; the numeric comparators are total preorders.", "quantifier": "every array contents and length, every total preorder", "why_tests_cant": "Quicksort partition behaviour depends on all orderings.", "anchors": ["code/source/core/sort.c: zpl_sort"]}
{"id": "C25", "title": "zpl_sort stays in bounds", "statement": "With a comparator that is a total preorder zpl_sort never reads or writes outside the array, and its explicit 64-entry stack never overflows for arrays of up to 2^35 elements. With at most eight elements the same holds for every comparator, and for every comparator a normal return is a permutation of the input. With more than eight elements an inconsistent comparator (one that always answers 'less') makes it read past the end of the array.", "quantifier": "every array and comparator", "why_tests_cant": "The stack-depth bound is a logarithmic argument over all partitions.", "anchors": ["code/source/core/sort.c: zpl_sort"]}
{"id": "C26", "title": "Radix sorts", "statement": "zpl_radix_sort_u16/u32/u64 leave the array sorted, a permutation of the input; the u8 variant leaves the sorted data in the temp buffer and the items array holds its original contents.", "quantifier": "every array of keys", "why_tests_cant": "All contents and lengths.", "anchors": ["code/source/core/sort.c: ZPL_RADIX_SORT_PROC_GEN"]}
{"id": "C27", "title": "Binary search", "statement": "On a sorted array zpl_binary_search returns an index holding an equal key if one exists and -1 (or the documented miss value) otherwise, terminates, and only inspects indices in [0, count).", "quantifier": "every sorted array, every key", "why_tests_cant": "All lengths and positions.", "anchors": ["code/header/core/sort.h: zpl_binary_search"]}
{"id": "C28", "title": "Shuffle and reverse go out of bounds", "statement": "zpl_shuffle with a non-negative generator produces a permutation, but a negative random value makes it address memory before the array; zpl_reverse moves both cursors forward and addresses memory past the array for every count >= 2.", "quantifier": "every array, every random sequence", "why_tests_cant": "The failing random values are rare.", "anchors": ["code/source/core/sort.c: zpl_shuffle, zpl_reverse"]}
{"id": "C29", "title": "CRC-32 equals the polynomial definition", "statement": "zpl_crc32 of any message equals the reflected CRC-32 with polynomial 0xEDB88320, initial value and final complement 0xFFFFFFFF, computed bit by bit; two messages that differ only within four consecutive bytes always have different checksums.", "quantifier": "every byte message", "why_tests_cant": "A single wrong table entry among 256 shows only for some messages.", "anchors": ["code/source/hashing.c: zpl__crc32_table, zpl_crc32"]}
{"id": "C30", "title": "CRC-64 equals the polynomial definition", "statement": "zpl_crc64 of any message equals the bit-by-bit reflected CRC with polynomial 0x95AC9329AC4BC9B5, initial value 0 and no final complement; it is linear (crc(a xor b) = crc(a) xor crc(b) for equal lengths), changes confined to eight consecutive bytes are always detected, and leading zero bytes never are.", "quantifier": "every byte message", "why_tests_cant": "Single wrong table entry.", "anchors": ["code/source/hashing.c: zpl__crc64_table, zpl_crc64"]}
{"id": "C31", "title": "Adler-32 equals its definition", "statement": "zpl_adler32 of any message equals (B<<16)|A where A = 1 + sum of bytes and B = sum of the successive A values, both modulo 65521; deferring the modulo over blocks of 5552 bytes never overflows 32 bits.", "quantifier": "every byte message of any length", "why_tests_cant": "The deferred reduction bound needs worst-case messages of every length class.", "anchors": ["code/source/hashing.c: zpl_adler32"]}
{"id": "C32", "title": "FNV hashes equal their definition and compose", "statement": "fnv32/64 and fnv32a/64a compute the standard FNV-1 / FNV-1a folds, the hash of a concatenation is determined by the hash of the prefix, and two messages of equal length differing in exactly one byte always hash differently.", "quantifier": "every message", "why_tests_cant": "Collision-freeness for one-byte changes is universally quantified.", "anchors": ["code/source/hashing.c: zpl_fnv32, zpl_fnv64, zpl_fnv32a, zpl_fnv64a"]}
{"id": "C33", "title": "Murmur64 ignores the tail", "statement": "zpl_murmur64 equals the published MurmurHash64A when the length is below 8 or divisible by 8. Otherwise it reads its trailing 1..7 bytes from the start of the message: for any message longer than 8 bytes with a length not divisible by 8 the tail bytes do not influence the hash, so distinct messages collide.", "quantifier": "every message with 8 < len, len mod 8 != 0", "why_tests_cant": "Needs an argument over all tails.", "anchors": ["code/source/hashing.c: zpl_murmur64_seed"]}
{"id": "C34", "title": "Base64 round trip", "statement": "For every non-empty byte string, decoding zpl_base64_encode's output yields the original bytes; encoded length is 4*ceil(n/3), the output contains only alphabet characters and padding.", "quantifier": "every byte string", "why_tests_cant": "All lengths modulo 3 and all byte values.", "anchors": ["code/source/hashing.c: zpl_base64_encode, zpl_base64_decode, zpl__base64_encoded_size, zpl__base64_decoded_size"]}
{"id": "C35", "title": "Base64 decoding of hostile text", "statement": "For non-empty NUL-terminated text made of base64 characters, zpl_base64_decode stays inside its buffers and tables if and only if the length is a multiple of four and at most three trailing \"=\" are present. Text with a foreign character gives NULL when its trailing padding does not exceed the 3*floor(n/4) bytes of the output, and otherwise writes before the output buffer. Witnesses that fault: \"====\", \"!====\", \"abc\".", "quantifier": "every NUL-free byte text", "why_tests_cant": "Needs an adversarial input.", "anchors": ["code/source/hashing.c: zpl_base64_decode"]}
{"id": "C36", "title": "UTF-8 encode then decode", "statement": "Encoding any Unicode scalar value and decoding the bytes gives back the value and the encoded length; invalid code points encode as U+FFFD.", "quantifier": "every 32-bit rune", "why_tests_cant": "All code points and all invalid values.", "anchors": ["code/source/core/string.c: zpl_utf8_encode_rune, zpl_utf8_decode"]}
{"id": "C37", "title": "UTF-8 decoding rejects non-shortest forms and surrogates", "statement": "If decoding any byte buffer yields rune r with width w and r is not the error rune, then the first w bytes are exactly the encoding of r and r is a scalar value; every call on a non-empty buffer consumes between 1 and 4 available bytes.", "quantifier": "every byte buffer", "why_tests_cant": "256^4 prefixes and truncation lengths.", "anchors": ["code/source/core/string.c: zpl_utf8_decode, zpl__utf8_first, zpl__utf8_accept_ranges"]}
{"id": "C38", "title": "UTF-8/UCS-2 round trip", "statement": "Converting a valid NUL-free UTF-8 string of scalar values to UCS-2/UTF-16 and back gives the same string when the buffers are large enough.", "quantifier": "every sequence of scalar values", "why_tests_cant": "All sequences including surrogate pairs.", "anchors": ["code/source/core/string.c: zpl_utf8_to_ucs2, zpl_ucs2_to_utf8"]}
{"id": "C39", "title": "UTF-8 length", "statement": "zpl_utf8_strlen of the concatenated encodings of n non-NUL scalar values is n; a malformed lead byte after them gives -1; zpl_utf8_strnlen counts the characters that begin before byte max_len. Counter-behaviour: a character truncated by the terminator makes zpl_utf8_strlen step over the terminator and read out of bounds, and zpl_utf8_strnlen reads one byte past max_len.", "quantifier": "every sequence of scalar values", "why_tests_cant": "All sequences.", "anchors": ["code/header/core/string.h: zpl_utf8_strlen, zpl_utf8_strnlen"]}
{"id": "C40", "title": "Unsigned integers survive printing and parsing", "statement": "For every u64 value and base 2..64, zpl_u64_to_str writes the unique base-b notation without leading zeros and a terminator, and needs exactly that much room. zpl_str_to_u64 reads the longest run of digits (after an optional 0x in base 16; base 0 means 16 after 0x and 10 otherwise), modulo 2^64, and reports where it stopped. In bases 2..10 and 16 parsing gives the printed value back; in every other base from 11 to 64 it does not (10 is printed as A and read as 0).", "quantifier": "every u64 value, every base", "why_tests_cant": "2^64 values per base.", "anchors": ["code/source/core/string.c: zpl_u64_to_str, zpl_str_to_u64"]}
{"id": "C41", "title": "Signed integers survive printing and parsing", "statement": "For every i64 value above the minimum and base 2..64, zpl_i64_to_str writes the sign, the unique notation and a terminator; zpl_str_to_i64 reads an optionally negated run of digits, overflowing exactly when the digits denote 2^63 or more; in bases 2..10 and 16 printing and parsing round-trips. The minimum overflows both in printing and in parsing, and base 0 does not recognise -0x.", "quantifier": "every i64 value, every base", "why_tests_cant": "2^64 values per base.", "anchors": ["code/source/core/string.c: zpl_i64_to_str, zpl_str_to_i64"]}
{"id": "C42", "title": "String comparison", "statement": "zpl_strcmp returns a negative, zero or positive value exactly when the first string is before, equal to or after the second in unsigned byte-wise lexicographic order. zpl_strncmp returns zero exactly when the first n characters agree; but the sign of a non-zero result is decided by the addresses of the two strings and not by their contents, so it does not order strings (witness: 'a' against 'b' and 'b' against 'a' both give -1).", "quantifier": "every pair of C strings and every n", "why_tests_cant": "Unbounded.", "anchors": ["code/header/core/string.h: zpl_strcmp, zpl_strncmp"]}
{"id": "C43", "title": "String copy bounds", "statement": "zpl_strncpy and zpl_strlcpy write exactly len bytes (the string cut to len, zero-padded), need a destination of len bytes, and leave the destination unterminated exactly when the string has len characters or more. zpl_strcpy and zpl_strcat copy exactly the characters of the source and no terminator, so the result runs into the old contents of the destination.", "quantifier": "every source and buffer size", "why_tests_cant": "Unbounded.", "anchors": ["code/header/core/string.h: zpl_strcpy, zpl_strcat, zpl_strncpy, zpl_strlcpy"]}
{"id": "C44", "title": "Tokenising and searching", "statement": "strlen/strnlen; first_occurence/last_occurence return the first/last index of the character (terminator included); strtok and strntok copy and terminate the longest delimiter-free prefix and step over one delimiter, except that strntok cuts a token that fills the buffer without terminating it and skips one of its characters; strrev reverses; has_prefix/has_suffix decide prefix/suffix; trim skips exactly the leading white space; skip, skip_any and skip_literal stop at the first (unescaped) wanted character; concat, strdup, to_lower and to_upper are exact.", "quantifier": "every C string", "why_tests_cant": "Unbounded.", "anchors": ["code/header/core/string.h: zpl_char_first_occurence, zpl_char_last_occurence, zpl_strtok, zpl_strrev, zpl_str_has_prefix, zpl_str_has_suffix, zpl_str_trim"]}
{"id": "C45", "title": "Length-prefixed strings refine byte strings", "statement": "For every history of append_length/appendc/append_rune/set/clear/trim/make_space_for on a zpl_string made by any constructor, with allocations that may fail: nothing undefined happens; either an allocation failed and NULL is returned, or the contents, the length, the terminator behind them and the size of the block are those of the same operations on mathematical byte strings. Joining is interspersing, are_equal is equality, duplicate copies.", "quantifier": "every operation history", "why_tests_cant": "Reallocation depends on history.", "anchors": ["code/source/core/stringlib.c: zpl_string_make_length, zpl_string_append_length, zpl_string_set, zpl_string_make_space_for, zpl_string_trim"]}
{"id": "C46", "title": "Random ranges", "statement": "For every generator state and all lo <= hi with hi - lo < 2^63 - 1, zpl_random_range_i64 (and range_isize) returns a value in [lo, hi], whichever order the two u32 draws are evaluated in; each member k is returned for exactly the drawn numbers congruent to k - lo modulo the size of the interval. For wider intervals, the full range included, the size overflows.", "quantifier": "every lo, hi and generator output", "why_tests_cant": "2^192 combinations.", "anchors": ["code/source/core/random.c: zpl_random_range_i64"]}
{"id": "C47", "title": "Unique random numbers are not unique", "statement": "zpl_random_gen_u32_unique repeats numbers: for every choice of the eight offsets, the first number comes again after 65536 calls, and the numbers at positions n and 2^31 - n are equal for all 3 <= n <= 2^31 - 3. Only the counter is as intended (advances by one, offsets kept).", "quantifier": "every generator state with value 0, every n", "why_tests_cant": "The first collision is far outside what tests look at.", "anchors": ["code/source/core/random.c: zpl__permute_qpr, zpl_random_gen_u32_unique"]}
{"id": "C48", "title": "Memory file streams", "statement": "For every history of write, read, seek, skip, seek-to-end, tell, write_at and read_at calls on a memory stream, with any of the allocations failing, the results and the final contents are those of an abstract file with a position: writes overwrite at the position and extend a growing stream, are cut at the capacity of a fixed one (zpl_file_write still returns true) and are refused by a read-only one; the position stays within [0, size]; a refused write still moves it. This needs reads within the size and write_at offsets of at most the size: reads are not bounded, so they run past the buffer or hand out bytes that are not in the file, and a write beyond the end copies a negative number of bytes.", "quantifier": "every history", "why_tests_cant": "All histories.", "anchors": ["code/source/core/file_stream.c: zpl__memory_file_write, zpl__memory_file_seek, zpl__memory_file_read"]}
{"id": "C49", "title": "Tar unpack recovers what pack wrote", "statement": "Files whose names have at most 12 bytes and whose sizes are below 2^31 are packed to exactly the format's archive: a 512-byte header with octal fields and the checksum the format defines, the data padded with zeros to a multiple of 512, and two closing zero blocks. Unpacking that archive yields the names and contents in order. A name of more than 12 bytes is stored as an empty name, a size of 2^32+5 is stored as 5, and a file that cannot be opened ends the packing with an error and no closing blocks. A missing file gives the code -4, one that cannot be opened -2, with the files before it stored. A stream opened for reading only keeps its contents and gives -2, at the first file that needs padding or at the closing blocks. Writes of headers and data are not checked: when they fail for want of memory, the entry is lost and the result is 0. When unpacking, the first callback result that is positive stops with -1 before the next entry is shown.", "quantifier": "every list of files", "why_tests_cant": "All lists and sizes.", "anchors": ["code/source/core/file_tar.c: zpl_tar_pack, zpl_tar_unpack, zpl__tar_checksum"]}
{"id": "C50", "title": "Tar extraction can escape the target directory", "statement": "Extraction creates base/name with the stored contents for every regular, correctly checksummed entry whose name does not begin with two dots and whose path fits, and nothing for other entries. A name without a \"..\" component stays inside the base directory. The filter is neither sound nor complete: \"a/../../b\" is accepted and resolves outside, \"..a\" is refused though it is inside; and its length check lets through paths of 4096 and 4097 characters that overrun the path buffer.", "quantifier": "every archive, base directory and name; witnesses for the failures", "why_tests_cant": "Adversarial names.", "anchors": ["code/source/core/file_tar.c: zpl_tar_default_unpack_file"]}
{"id": "C51", "title": "URI percent-encoding round trip", "statement": "Percent-encoding a NUL-free string gives its unique encoded form, made of unreserved characters, '+' and '%XX'; decoding in place gives the string back and touches nothing else, for strings shorter than 65536 bytes (longer ones overflow the decode buffer). Writing an origin and a list of parameters (texts, integers, flags) and parsing the result gives the same nodes. Witnesses of failure: a text cut after '%' is read past its end, texts of hex digits become 0, a trailing empty flag is lost, the origin is used as a printf format.", "quantifier": "every byte string", "why_tests_cant": "All strings.", "anchors": ["code/source/parsers/uri.c: zpl__uri_decode_str, zpl__uri_print_str"]}
{"id": "C52", "title": "CSV write then parse gives the same table", "statement": "For every separator that is not a blank, a quote or a character of numbers, writing a table of one or more rows of n >= 1 cells (quoted non-empty texts, plain non-numeric texts, integers, blanks that are not last in a row), with or without a row of non-empty column names, and parsing the result gives the same nodes back with error OK, whatever bytes follow the end of the text. Outside that class it fails silently, with witnesses: an empty quoted cell cuts the next one in two, an empty cell at the end of a row is lost, tabs as separators put a row into one column, texts of hex digits become the number 0, later longer rows are accepted, text after a closing quote becomes a cell, and names without rows are not written. A text of white space alone, complete rows followed by a quote that is never closed, and complete rows followed by a row with fewer cells are refused with the error for it.", "quantifier": "every table in the class", "why_tests_cant": "All tables.", "anchors": ["code/source/parsers/csv.c: zpl_csv_parse_delimiter, zpl_csv_write_delimiter, zpl__csv_write_record"]}
{"id": "C53", "title": "JSON write then parse", "statement": "Every text spelling a JSON document (objects, arrays, true, false, null, infinities, NaN, decimal integers, strings with properly escaped quotes, names in double, single or no quotes - quoted ones with well-formed escapes -, ':', '=' or '|' assignments, ',', '|' or newline delimiters, blanks and line comments) parses without error to that document, whatever follows it. Every document of members with usable names and strings free of the closing quote, at any indent from compact to 65533, is written as such a text, and reading it back gives the same names, properties and values at every node; only the recorded style of members can change, in an exactly stated way; writing what came back gives the same text again, and documents in the default style come back exactly from compact text.", "quantifier": "every document tree of any depth, every spelling of it, every indent", "why_tests_cant": "All trees.", "anchors": ["code/source/parsers/json.c: zpl_json_parse, zpl_json_write, zpl__json_parse_value, zpl__json_write_value"]}
{"id": "C54", "title": "JSON parser defects", "statement": "The JSON parser and writer deviate as follows: for every object text, leaving off the closing brace is accepted; for every block comment without '*' inside, the character after it is lost, and one at the end of the text leads to a null pointer; a newline before the opening brace makes the document a brace-less one; every string containing an escaped quote comes back longer after writing and reading; texts ending inside a string, after a name or assignment, or in an inner object are read beyond their end; missing delimiters, missing values and trailing text are accepted; some documents the parser accepts come back from their written text with other members, without an error. What is refused: an array element not followed by a comma or the bracket (also at the end of the text), a text ending after an array's opening bracket or comma, a word that is none of the constants, an object closed by a square bracket, a quoted name with a malformed escape and a quoted name without an assignment each give their error code.", "quantifier": "all objects, comments and strings for the general parts; witnesses for the rest", "why_tests_cant": "Adversarial inputs.", "anchors": ["code/source/parsers/json.c: zpl__json_parse_object, zpl__json_trim, zpl_json_write"]}
{"id": "C55", "title": "Formatted printing overflows its limit", "statement": "For every format made of literal text and %s %c %% %r %d %i %u %o %x %X %p directives with alignment, zero flag, widths and precisions (in digits or as arguments) and length modifiers, if the expansion and its NUL fit the buffer and the limit, zpl_snprintf writes exactly the expansion and a NUL, inside the buffer, and returns its length with the NUL (or -1 if that equals the limit); for %x %X %p this needs a NUL already in the buffer behind the text. The limit is otherwise not kept: literal text and %*r are written past the buffer, a field as long as the limit has its NUL written one past the end, a longer one is silently dropped with success reported, %x without a NUL behind the text runs out of the buffer, and a limit of 0 makes the loop spin forever on a literal character. A null text is printed as (null) when the limit is large enough, and read through when the limit is below 6; a field at least as wide as the limit and the text together overwrites the whole buffer with blanks and puts its NUL one past the end.", "quantifier": "every format in the fragment / witness", "why_tests_cant": "Adversarial formats.", "anchors": ["code/source/core/print.c: zpl_snprintf_va, zpl__print_string"]}
{"id": "C56", "title": "Regular expressions: the working fragment", "statement": "For patterns made of literal runs (each under 128 characters), '.', '^', '$', escapes, character sets, negated sets and nested capture groups (at most 256), zpl_re_compile succeeds with one capture per group, and zpl_re_match reports exactly the leftmost match at a position inside the subject (position 0 only for an anchored pattern): its end offset and the span of every group that fits the capture array, or no match when there is none. The result is unique. Nothing outside the subject is read, except the one byte behind it when the pattern contains sets or escapes. zpl_re_match_all reports the groups of all successive matches, and succeeds when they end exactly at the end of the subject.", "quantifier": "every pattern of the fragment, every subject, every capture array and max", "why_tests_cant": "Patterns, nesting depth and subjects are unbounded; tests sample a few, and cannot see over-reads.", "anchors": ["code/source/regex.c: zpl_re_compile, zpl_re__parse, zpl_re__parse_group, zpl_re__exec, zpl_re__exec_single, zpl_re_match, zpl_re_match_all"]}
{"id": "C57", "title": "Regular expressions: what does not work", "statement": "For all words x, y and characters c: 'x|y' matches exactly where the concatenation xy stands; '(x|y)' matches exactly where x stands; 'c*' and 'c+' on a subject not starting with c read the program at index -1; a final 'c*'/'c+' takes a single c, also behind a word, where only the word's last character is repeated; 'c*.' and 'c+.' take all c's and one character more, 'c*?.' and 'c+?.' one c and one more; 'c?w' on a subject not starting with c reads the subject at index -1; 'c?.' then reports an empty match; a ']' outside a set makes the compiler loop for ever; '[w' and '(w\\\\)' are accepted; '\\\\d', '\\\\D' and '\\\\a' followed by any character are hexadecimal escapes and work only at the end of a pattern; the empty pattern is found in every text; a literal of 128 to 253 characters makes the matcher read before its program; '$' alone is never found; zpl_re_compile_from_buffer never stores a program; a quantifier behind a full program writes one byte past it; zpl_re_match_all does not end on an empty match.", "quantifier": "every word, character, subject and fuel named in the statement (the overflow is a single witness)", "why_tests_cant": "Adversarial patterns whose failures are over-reads or non-termination.", "anchors": ["code/source/regex.c: zpl_re__exec_single, zpl_re__exec, zpl_re__parse, zpl_re__compile_quantifier, zpl_re_compile_from_buffer, zpl_re_match_all"]}
{"id": "C58", "title": "ADT trees", "statement": "For any history of append/insert/set/remove/move/swap calls on ADT nodes that the code gets through (moves going to a different branch, swapped nodes not containing each other), with any allocation failures, the children of every branch are those of the same list operations; histories on the children of the root are always got through; find returns the first child with the name, or the first deep hit; destroy frees the children of every node exactly once. Limits with witnesses: the parent link of a grandchild goes stale when its parent moves, after which removing it is undefined; a move within the same parent duplicates the wrong neighbour; removing a branch leaks its children.", "quantifier": "every operation history", "why_tests_cant": "All histories.", "anchors": ["code/source/adt.c: zpl_adt_alloc_at, zpl_adt_remove_node, zpl_adt_find, zpl_adt_swap_nodes"]}
{"id": "C59", "title": "Job system runs every job at most once and done means done", "statement": "For every interleaving of the dispatcher and the workers, each enqueued job is executed at most once, and when zpl_jobs_done returns true every job enqueued so far has finished.", "quantifier": "every schedule, any number of workers and jobs", "why_tests_cant": "Thread schedules.", "anchors": ["code/source/jobs.c: zpl_jobs_enqueue_with_priority, zpl_jobs_process, zpl_jobs_done, zpl__jobs_entry"]}
{"id": "C60", "title": "Job priorities are not starvation free", "statement": "With one worker, only the two highest queues in use and both non-empty, the realtime queue is never served again once the dispatch counter is odd: in every schedule, and such infinite schedules exist.", "quantifier": "every schedule from such a state / existential infinite schedule", "why_tests_cant": "An infinite execution.", "anchors": ["code/source/jobs.c: zpl_jobs_process"]}
{"id": "C61", "title": "Barrier", "statement": "For every schedule, no thread returns from zpl_sync_reach_and_wait before target threads have reached the barrier in its round, zpl_sync_reach returns the number of its arrival, and once the target is reached all threads that arrived can return and the barrier is ready for the next target. A target of 0 jams the barrier for ever, and reaching again before the others have left is an assertion failure.", "quantifier": "every schedule and thread count", "why_tests_cant": "Thread schedules.", "anchors": ["code/source/threading/sync.c: zpl_sync_reach_and_wait, zpl_sync_set_target, zpl_sync_release"]}
{"id": "C62", "title": "Spin lock does not exclude", "statement": "zpl_atomic32_spin_lock passes its compare-exchange arguments in the wrong order: there is a schedule with two threads inside the critical section at once; with the arguments exchanged mutual exclusion holds for all schedules.", "quantifier": "existential schedule / every schedule of the corrected lock", "why_tests_cant": "Thread schedules.", "anchors": ["code/source/threading/atomic.c: zpl_atomic32_spin_lock, zpl_atomic32_try_acquire_lock"]}
{"id": "C63", "title": "Virtual memory trim", "statement": "zpl_vm_trim releases exactly the lead and trail parts of the mapping and keeps [lead, lead+size): false on Unix, where the trailing release starts at the retained region. A cut that reaches beyond the end of the region is asserted against. zpl_vm_alloc maps exactly the pages asked for, at the address it reports, and zpl_vm_free unmaps exactly them again; empty regions are refused.", "quantifier": "every lead, total and size", "why_tests_cant": "Interval arithmetic for all sizes.", "anchors": ["code/source/core/memory_virtual.c: zpl_vm_trim"]}
{"id": "C64", "title": "Epoch conversions are inverse", "statement": "Converting Win32 to Unix time and back (and conversely) is the identity on every 64-bit value.", "quantifier": "every 64-bit value", "why_tests_cant": "2^64 inputs.", "anchors": ["code/header/core/time.h: zpl_time conversion helpers"]}
{"id": "C65", "title": "Half-precision conversion", "statement": "Converting any half-precision value to single precision and back gives the same bit pattern, and conversion from single precision rounds to a nearest half-precision value.", "quantifier": "every 16-bit half / every 32-bit float pattern", "why_tests_cant": "2^32 inputs and rounding boundaries.", "anchors": ["code/source/math.c: zpl_half_to_float, zpl_float_to_half"]}
{"id": "C66", "title": "Matrix inverse", "statement": "In exact arithmetic zpl_mat2_inverse and zpl_mat4_inverse return the inverse whenever the determinant is non-zero; zpl_mat3_inverse returns the transpose of the inverse. zpl_mat4_mul is associative and compatible with zpl_mat4_mul_vec4, whereas the 2x2 and 3x3 matrix-vector products use the transposed convention.", "quantifier": "every matrix over an exact field", "why_tests_cant": "Polynomial identities over all reals.", "anchors": ["code/source/math.c: zpl_mat2_inverse, zpl_mat3_inverse, zpl_mat4_inverse, zpl_float44_mul, zpl_float33_mul_vec3"]}
{"id": "C67", "title": "Quaternions", "statement": "In exact arithmetic quaternion multiplication is associative, multiplicative on squared magnitude, zpl_quat_inverse is a two-sided inverse of any non-zero quaternion, and zpl_quat_rotate_vec3 by a unit quaternion preserves dot products and equals q v q*.", "quantifier": "every quaternion and vector", "why_tests_cant": "Polynomial identities over all reals.", "anchors": ["code/source/math.c: zpl_quat_mul, zpl_quat_inverse, zpl_quat_rotate_vec3"]}
{"id": "C68", "title": "Scratch release can loop forever", "statement": "There is a history of two allocations and two releases on a scratch buffer whose last release never terminates (the free point cycles through blocks marked free without meeting the allocation point).", "quantifier": "existential history; non-termination for every number of loop steps", "why_tests_cant": "Non-termination is a statement about every step count; a test can only time out.", "anchors": ["code/source/essentials/memory_custom.c: zpl_scratch_allocator_proc"]}
{"id": "C69", "title": "Comparator factories share one offset per key type", "statement": "The comparator returned by zpl_i32_cmp(offset) and its siblings compares the keys at the offset of the most recent call for that key type: it compares at its own offset as long as no later call for the same type happens, and a later call with another offset silently changes every comparator of that type handed out before.", "quantifier": "every sequence of factory calls, every pair of elements", "why_tests_cant": "The hidden state only shows when comparators of the same type are interleaved.", "anchors": ["code/source/core/sort.c: ZPL__COMPARE_PROC"]}
{"id": "C70", "title": "murmur32 is MurmurHash3", "statement": "zpl_murmur32_seed of any message and seed equals the published MurmurHash3_x86_32, and two messages of equal length that differ only inside one aligned four-byte word (or inside the final shorter word) never collide.", "quantifier": "every message, every seed", "why_tests_cant": "Non-collision is a statement about all pairs of messages.", "anchors": ["code/source/hashing.c: zpl_murmur32_seed", "code/header/hashing.h: zpl_murmur32"]}
{"id": "C71", "title": "UTF-8 to UCS-2 of arbitrary text", "statement": "For every NUL-terminated byte string and every buffer of at least one unit, zpl_utf8_to_ucs2 reads and writes in bounds and succeeds exactly when the string is well-formed UTF-8 whose UTF-16 form plus terminator fits, in which case the buffer holds that form; otherwise it returns NULL. zpl_ucs2_to_utf8 has no such guarantee: an unpaired high surrogate before the terminator makes it read past the end for every preceding text, and one before another unit produces ill-formed UTF-8.", "quantifier": "every byte string, every buffer size", "why_tests_cant": "All malformed sequences and all truncation points.", "anchors": ["code/source/core/string.c: zpl_utf8_to_ucs2, zpl_ucs2_to_utf8"]}
{"id": "C72", "title": "zpl_utf8_codepoint_size does not give the size", "statement": "For every encoded non-NUL scalar value at the front of the buffer zpl_utf8_codepoint_size returns 1, whatever the length of its encoding.", "quantifier": "every scalar value", "why_tests_cant": "Holds for every code point rather than for an example.", "anchors": ["code/source/core/string.c: zpl_utf8_codepoint_size"]}
{"id": "C73", "title": "Splitting a text into lines", "statement": "For every text made of newline-terminated lines whose first line is not empty, zpl_str_split_lines returns the starts of the lines (without the empty ones on request) and replaces each newline, and a carriage return before it, by NUL. A last line without its newline makes the search run past the terminator, and a text that starts with a newline makes it read the byte before the text.", "quantifier": "every text", "why_tests_cant": "Unbounded texts; the overrun shows only under a memory checker.", "anchors": ["code/header/core/string.h: zpl_str_split_lines"]}
{"id": "C74", "title": "Hexadecimal digits", "statement": "zpl_hex_digit_to_int returns the value of every hexadecimal digit and -1 for every other character; zpl_char_to_hex_digit returns the value of the decimal digits but d-10 for the letters of value d.", "quantifier": "every character", "why_tests_cant": "A test with decimal digits only misses it.", "anchors": ["code/header/core/string.h: zpl_hex_digit_to_int, zpl_char_to_hex_digit"]}
{"id": "C75", "title": "String defects: self-append, allocation size, join", "statement": "zpl_string_append(s, s) is correct exactly when the spare capacity covers the length; otherwise it copies from the released block. zpl_string_allocation_size is one less than the block holds behind the header. zpl_string_join dereferences NULL after a failed allocation.", "quantifier": "every string", "why_tests_cant": "The freed block usually still holds the old bytes.", "anchors": ["code/source/core/stringlib.c: zpl_string_append_length, zpl_string_allocation_size, zpl_string_join", "code/header/core/stringlib.h: zpl_string_append"]}
{"id": "C76", "title": "Generator state", "statement": "zpl_random_gen_u32 yields the permuted value and advances the eight offsets as one 256-bit counter modulo 2^256, so no state comes back in fewer than 2^256 calls; zpl_random_gen_u64 stays in range.", "quantifier": "every generator state, every number of calls", "why_tests_cant": "Carries between offsets happen every 2^32 calls and beyond.", "anchors": ["code/source/core/random.c: zpl_random_gen_u32, zpl_random_gen_u64"]}
{"id": "C77", "title": "printf conversions that differ from C", "statement": "Zero padding goes before the sign (%05d of -5 is 000-5), %0d and a width argument of 0 print nothing, a precision cuts the digits of an integer, the flags + and # have no effect, %o is signed and %zd is unsigned, %c of NUL prints nothing, and a text that fits exactly is reported as -1.", "quantifier": "witnesses", "why_tests_cant": "The directives in use by callers behave as in C, so the differences only show for particular flags and values.", "anchors": ["code/source/core/print.c: zpl_snprintf_va, zpl__print_string"]}
{"id": "C78", "title": "Tar unpacking need not terminate", "statement": "There is a 512-byte archive, with a valid checksum and a negative size field, for which unpacking reads the same header for ever; and unpacking a memory archive that ends without closing blocks reads past its end.", "quantifier": "witness, for every number of rounds; every truncated archive", "why_tests_cant": "Non-termination is a statement about every number of rounds.", "anchors": ["code/source/core/file_tar.c: zpl_tar_unpack"]}
{"id": "C79", "title": "Shutting down the job system", "statement": "zpl_jobs_free called while every worker is waiting (as after zpl_jobs_done answered true) can always complete, whatever steps have been taken meanwhile. A job being executed when zpl_jobs_free is called is finished before the worker is joined. Called earlier it can hang: if a worker has seen READY but not yet stored BUSY when TERM is stored, TERM is overwritten and the join never returns, in any continuation. Called earlier it can also drop jobs that were accepted, even ones already handed to a worker.", "quantifier": "all schedules, all numbers of workers; the hang holds for every continuation", "why_tests_cant": "the hang needs one exact interleaving and is an absence over infinitely many continuations", "anchors": ["code/source/jobs.c:81-95", "code/source/jobs.c:16-47"]}
{"id": "C80", "title": "No accepted job is ever stuck", "statement": "From every state the job system can be in before zpl_jobs_free, with at least one worker, there is a continuation without further enqueues after which zpl_jobs_done answers true and every accepted job has finished: no combination of queue contents, counter value (including wrap-around) and worker positions loses a job or blocks it for good.", "quantifier": "all reachable states, all numbers of workers and queue sizes, all 2^32 counter values", "why_tests_cant": "depends on every residue of a 32-bit counter against five chances, and on every interleaving leading to the state", "anchors": ["code/source/jobs.c:154-187", "code/source/jobs.c:125-143"]}
{"id": "C81", "title": "Rounding and zpl_mod", "statement": "In exact arithmetic and away from the int limits, zpl_round rounds to nearest with halves away from zero; zpl_floor is the floor except that negative integers give one less; zpl_ceil is the ceiling except that non-negative integers give one more. zpl_mod(x, y), with |x| = (k + f)|y| for whole k and 0 <= f < 1, has magnitude (1 + f)|y| when f < 1/2 and (1 - f)|y| otherwise, so it is fmod only when f = 1/2.", "quantifier": "every rational argument within the int range", "why_tests_cant": "The error sits on a measure-zero set for floor and ceil, and sampling cannot give the exact law.", "anchors": ["code/source/math.c: zpl_floor, zpl_ceil, zpl_round, zpl_remainder, zpl_mod"]}
{"id": "C82", "title": "Reflection and refraction", "statement": "In exact arithmetic zpl_vec3_reflect about a unit normal preserves dot products, reverses the normal component, keeps tangential components and is its own inverse. zpl_vec3_refract scales tangential components by eta, but its normal component is eta (n.i)(1 - sqrt k): light at normal incidence is refracted to the zero vector whatever eta is.", "quantifier": "every vector, unit normal and ratio", "why_tests_cant": "Polynomial identities over all vectors.", "anchors": ["code/source/math.c: zpl_vec3_reflect, zpl_vec3_refract"]}
{"id": "C83", "title": "Frustum tests", "statement": "zpl_frustum_create and zpl_frustum_point_inside agree with the clip-space test when camera*proj is symmetric with equal y.z and y.w entries, but not in general: a perspective projection makes a point in the middle of the view test as outside, and so does a symmetric matrix whose y.z and y.w differ. zpl_frustum_box_inside is true exactly when a corner is inside, so a box around the whole frustum tests as outside.", "quantifier": "every matrix, point and box", "why_tests_cant": "The guard is a condition on all 16 entries; the failure depends on the matrix.", "anchors": ["code/source/math.c: zpl_frustum_create, zpl_frustum_sphere_inside, zpl_frustum_box_inside"]}
{"id": "C84", "title": "Rectangles and boxes", "statement": "zpl_rect2_contains tests the half-open rectangle whatever the signs of its sides; the intersection of two rectangles contains exactly the common points and is reported exactly when there are any; conversions between zpl_rect2 and zpl_aabb2 keep the points; the four zpl_aabb2_cut functions partition the box into a piece of the asked width (or the whole box) and the rest. zpl_aabb2_contract moves all sides inwards and zpl_aabb2_expand outwards for boxes in the positive quadrant, but empties boxes nearer the origin at their upper corner, even when expanding.", "quantifier": "every rectangle, box and point", "why_tests_cant": "Quantifies over all points of the plane.", "anchors": ["code/source/math.c: zpl_rect2_contains, zpl_rect2_intersection_result, zpl_aabb2_cut_left, zpl_aabb2_contract"]}
{"id": "C85", "title": "Interpolation", "statement": "zpl_lerp meets its ends, stays between them and is undone by zpl_unlerp; zpl_smooth_step and zpl_smoother_step go from 0 to 1 without ever turning back; zpl_vec3_cslerp meets its ends, and zpl_vec3_dcslerp is its derivative, equal to the given speeds at the ends.", "quantifier": "every argument in range", "why_tests_cant": "Monotonicity and derivative are statements about all parameter values.", "anchors": ["code/source/math.c: zpl_lerp, zpl_unlerp, zpl_smooth_step, zpl_smoother_step, zpl_vec3_cslerp, zpl_vec3_dcslerp"]}
{"id": "C86", "title": "Reading doubles", "statement": "zpl_str_to_f64 reads every terminated string without leaving it and stops at the first character that does not belong to the number. Whole numbers below 2^53 are read exactly; with an exponent of at most 22 either way the result is a nearest double; with n <= 22 digits behind the point and whole part N < 2^53 the error is at most (n+1) 2^-51 (N+1), scaled by the power of ten. Exponents above 308 either way are read as 308, so 1e400 is 1e308 and 5e-324 is about 5e-308; fractions are not always read as the nearest double (0.013), the largest double is read as infinity, and exponents wrap at 2^32.", "quantifier": "every terminated string; every decimal text with blanks, sign, digits, fraction and exponent", "why_tests_cant": "Rounding errors accumulate over all digit strings; a bound and nearest rounding are statements about all of them.", "anchors": ["code/source/core/string.c: zpl_str_to_f64"]}
{"id": "C87", "title": "Printing doubles", "statement": "For every finite double below 2^64 in magnitude and at most 15 places, %f (and F g G a A, which mean the same) writes a sign, the whole part, a point and one number per place, each between 0 and 10, whose decimal value is the fraction cut off at the last place up to 2^-50; zero is written as 0. The width fills on the left. Mixed with the other conversions the expansion is written wherever it fits, terminated. Infinities, NaN and magnitudes from 2^64 on are undefined behaviour, so are 18 places for every number but zero and 16 places for some; the numbers behind the point are not always single digits (the double below 0.1 is printed as 0.0100000, 0.25 as 0.249999), the flag - yields a plus sign. Without room the limit is not respected: the digits are written behind it, only sign and point are left out.", "quantifier": "every double, width, precision, format and buffer with room", "why_tests_cant": "The digit loop subtracts rounded quotients; which doubles yield the digit 10 or a negative remainder cannot be found by sampling.", "anchors": ["code/source/core/print.c: zpl__print_f64, zpl_snprintf_va"]}
{"id": "C88", "title": "Numbers in documents", "statement": "zpl_adt_parse_number reads an optional sign and a run of digits and letters a-f x: the decimal digits at its beginning (after 0x without a minus, the hexadecimal digits) are the value if it is below 2^63, otherwise, and from 48 characters on, the behaviour is undefined. Digits with a point and an optional exponent are a real: the double is within (places+exponent+2)*2^-51*(whole+1)*10^exponent of the number for exponents 0 to 127; fractions or whole parts of 2^63 and exponents of six digits are undefined. Decimal integers, lower-case hexadecimal integers, numbers like .05, and reals with an exponent from -8 to 7 other than 0 are written back by zpl_adt_print_number exactly as read (parts below 2^31, a fraction that is not zero, at most 15 zeros in front). Other exponents are written modulo 16, reals without exponent by %f from the double, so six places; every negative real with whole part 0 and a non-zero fraction up to 13 places is written with two minuses, which is no number.", "quantifier": "every text of these shapes, whatever follows it; every node name and style", "why_tests_cant": "The written text depends on bit-field widths (32, 4 and 4 bits), on the buffer of 48 characters and on the digits; sampled numbers miss the wrap-arounds.", "anchors": ["code/source/adt.c: zpl_adt_parse_number, zpl_adt_print_number"]}
{"id": "C89", "title": "Looking up nodes by path", "statement": "zpl_adt_query on a document whose objects have named members and whose numbers can be printed, with a path of segments separated by one or two slashes (one may lead, one or two may trail), is defined and returns a result exactly if the walk described here exists, and then its result: a word in an object leads to the first member of that name, a word in an array to the element at the number the word begins with (no digits: element 0), [k=v] in an array to the first object with a member k whose text is v, [k=v] in an object to the object itself, [v] in an array to the first element whose text is v; the text of a string is the string, of a number what zpl_adt_print_number writes. A leaf, a missing name or an index out of range gives NULL whatever follows. [v] in an object, a bracket not closed before the next slash (also in a name), an index of 2^63 or more and members without names are undefined or failed assertions.", "quantifier": "every document of this kind, every path of segments below 65535 characters", "why_tests_cant": "Documents and paths are unbounded trees and texts; the exactness (defined if and only if a walk exists) quantifies over all of them.", "anchors": ["code/source/adt.c: zpl_adt_query, zpl__adt_get_value, zpl__adt_get_field, zpl_adt_find"]}
{"id": "C90", "title": "Command-line options", "statement": "For options with distinct long names, zpl_opts_compile on any arguments is defined exactly if the arguments have a meaning, which is then unique, and it leaves the parser in the state of that meaning and returns true exactly if there was no error. An argument -n or --name (after blanks) of a switch sets it; n=v, or n followed by an argument v not beginning with -, sets the option n to v (a string, the integer or the double v begins with) and takes it out of the options still wanted by position; any other argument goes to the first option still wanted by position. Errors, each recorded with its text: an unknown name; a switch with =; a switch followed by a plain argument when nothing is wanted by position; an option without a value, also when the next argument begins with -; a plain argument nobody wants. zpl_opts_string, integer, real and has_arg then give the values, or the fallback. A value ending with a backslash, an empty value as an argument of its own, and an integer of 2^63 or more are undefined. Options wanted by position become dangling pointers when a later zpl_opts_add moves the table (the 9th option). zpl_opts_print_help reads behind the table exactly when the table is full, and names the options wanted by position in the wrong order.", "quantifier": "every table of options with distinct long names, every state of the parser, every list of arguments", "why_tests_cant": "Argument lists are unbounded and every combination of pending positions, types and following arguments matters; the exactness (defined if and only if there is a meaning) quantifies over all texts.", "anchors": ["code/source/opts.c: zpl_opts_init, zpl_opts_add, zpl_opts_positional_add, zpl_opts_compile, zpl__opts_set_value, zpl__opts_find, zpl_opts_string, zpl_opts_real, zpl_opts_integer, zpl_opts_has_arg, zpl_opts_print_help"]}
{"id": "C91", "title": "Paths and directories", "statement": "On Unix: zpl_path_is_absolute is true exactly for paths beginning with /, zpl_path_is_root exactly for /. zpl_path_base_name is what follows the last / (the whole path if there is none); zpl_path_extension is what follows the last . of the path, NULL if there is none, and so may contain a / (d.x/f). zpl_path_mkdir_recursive on a path of at most 4095 bytes makes every missing directory on the path up to the first one below a file, leaves everything else as it was and returns 0, also if a file was in the way; on a longer path it returns -1 and does nothing. zpl_path_dirlist lists each entry of the directory (and, if recursive, each entry below it, a directory before its entries) exactly once as one line, except the names that are . or begin with ..; it leaves one directory stream open, and two for each directory visited below, so once the streams of the process are used up nothing is listed. zpl_dirinfo_init gives the path of each entry, provided no name has a newline or ends with a carriage return; the path it keeps has no terminator. zpl_dirinfo_step for a file opens its directory the first time; later it opens a path with the rest of an earlier, longer one behind it; a directory of more than 128 bytes or a name without / is undefined. The empty path, and a path to nothing, list nothing.", "quantifier": "every path, every file-system tree with distinct names in each directory, every number of streams left, every earlier content of the buffer", "why_tests_cant": "Trees are unbounded in depth and width; the leak shows only after as many listings as the process has descriptors, the stale buffer only for particular sequences of paths.", "anchors": ["code/header/core/file_misc.h: zpl_path_is_absolute, zpl_path_is_root, zpl_path_base_name, zpl_path_extension", "code/source/core/file_misc.c: zpl_path_mkdir, zpl_path_mkdir_recursive, zpl__file_direntry, zpl_path_dirlist, zpl_dirinfo_init, zpl_dirinfo_step"]}
{"id": "C92", "title": "Files on Linux", "statement": "zpl_file_open_mode: READ needs the file to exist, WRITE empties or makes it, APPEND keeps or makes it, RW adds reading; other modes panic. zpl_file_read_at fills the buffer with what the file has from the offset on, leaves the rest of the buffer and returns true. zpl_file_read does so at the position, which then moves by the size asked for, also beyond the end: a write after a read at the end leaves a gap of zeros. zpl_file_write_at puts the bytes at the offset, zeros before them if there is a gap, changes no other file, and moves the position exactly if the offset was the position. zpl_file_write writes at the position and moves it by the size; what was written is read back there. With APPEND everything goes to the end, but the position then counts only what was written. zpl_file_size is the size and keeps the position; zpl_file_truncate cuts or pads with zeros. zpl_file_write_contents makes the file hold exactly the bytes, if the device takes them in one call; otherwise only a part is written and true is returned. zpl_file_read_contents gives the bytes (and a NUL on request); an empty file looks like a missing one. zpl_file_read_lines splits a file of terminated lines; a missing file has no lines, a last line without newline is undefined. zpl_fs_exists holds for the files that can be opened for reading. zpl_fs_copy puts the bytes over the start of the other file: a longer one keeps its end, also with fail_if_exists; a missing file makes an empty one; more than 0x7ffff000 bytes are copied in part. zpl_fs_move moves if and only if the new name is free. zpl_fs_last_write_time is 0 for every file that exists, and zpl_file_has_changed never reports a change of one.", "quantifier": "every set of files and contents, every position, offset and buffer, every amount of room on the device", "why_tests_cant": "Offsets, sizes and contents are unbounded; the limit of 0x7ffff000 bytes, a full device and gaps beyond the end are out of reach or rare in tests.", "anchors": ["code/source/core/file.c: zpl__posix_file_seek, zpl__posix_file_read, zpl__posix_file_write, zpl__posix_file_open, zpl_file_open_mode, zpl_file_has_changed, zpl_file_truncate, zpl_file_size, zpl_file_read_contents, zpl_file_write_contents, zpl_file_read_lines", "code/header/core/file.h: zpl_file_read_at, zpl_file_write_at, zpl_file_seek, zpl_file_seek_to_end, zpl_file_tell, zpl_file_read, zpl_file_write", "code/source/core/file_misc.c: zpl_fs_last_write_time, zpl_fs_copy, zpl_fs_move, zpl_fs_remove"]}
{"id": "C93", "title": "Threads", "statement": "For a zpl_thread whose owner starts and joins it in turns, in every interleaving: no assertion fails; after zpl_thread_join exactly the procedures started have run, each once, in order and with its own user data, zpl_thread_is_running is false and return_value is what the last one returned. If the thread was made by zpl_thread_init, then after zpl_thread_start has returned, zpl_thread_is_running is false only if the procedure has returned and return_value is set; with zpl_thread_init_nowait this is not so. zpl_thread_start and zpl_thread_join always return. zpl_thread_start returns something other than 0 whether it succeeds or fails. Without joining in between, a second start is not noticed: one procedure may run twice and the other never, and a thread can no longer be joined. Starting a thread that is seen running fails an assertion. After a failed start the handle may be anything: joining is undefined unless it happens to be that of a thread not joined yet.", "quantifier": "every sequence of starts (successful or failing) and joins, every interleaving with the started threads, every procedure", "why_tests_cant": "Which interleavings happen is up to the scheduler; the properties quantify over all of them.", "anchors": ["code/source/threading/thread.c: zpl_thread_init, zpl_thread_init_nowait, zpl__thread_run, zpl__thread_proc, zpl_thread_start_with_stack, zpl_thread_join, zpl_thread_is_running"]}
{"id": "C95", "title": "Rotations", "statement": "zpl_vec3_norm gives the only unit vector in the direction of a vector other than 0. zpl_quat_axis_angle gives a unit quaternion, and zpl_quat_rotate_vec3 with it, like zpl_mat4_axis_angle, turns every vector by the angle about the axis (the part along the axis stays, the part across it goes round); zpl_mat4_rotate does so before the matrix given. Turns about one axis add up. zpl_quat_euler_angles rolls about z, then pitches about x, then yaws about y. zpl_quat_from_mat4 undoes zpl_mat4_from_quat up to length and sign, and the sign does not change the turn. zpl_quat_angle and zpl_quat_axis give back angle and axis of a unit quaternion, and zpl_quat_yaw a yaw of up to 90 degrees. zpl_quat_axis does not give a unit vector for quaternions that are not unit (unless w is 0). zpl_quat_roll and zpl_quat_pitch give the arc tangent of half the tangent of the angle, which is the angle only for 0. For half turns zpl_quat_roll and zpl_quat_pitch are right.", "quantifier": "every real axis other than 0, angle, vector, matrix and quaternion", "why_tests_cant": "Angles, axes and vectors are continua; tests sample a few, mostly special ones.", "anchors": ["code/source/math.c: zpl_vec3_norm, zpl_mat4_axis_angle, zpl_mat4_rotate, zpl_quat_axis_angle, zpl_quat_euler_angles, zpl_quat_mag, zpl_quat_axis, zpl_quat_angle, zpl_quat_roll, zpl_quat_pitch, zpl_quat_yaw, zpl_quat_from_mat4"]}
{"id": "C96", "title": "Interpolation of quaternions", "statement": "zpl_quat_lerp gives the point at the fraction t of the line from a to b, zpl_quat_nlerp its direction; between unit quaternions that are not opposite the result is unit. zpl_quat_slerp between unit quaternions that differ by more than the sign gives a unit quaternion at the angle t*th from a and (1-t)*th from the nearer of b and -b, th being the angle between these two, and starts at a and ends there. From a quaternion to itself or its opposite, and where the product of the two is above 1 (where the code means to interpolate linearly), the result is NaN. zpl_quat_slerp_approx is zpl_quat_nlerp at 0, 1/2 and 1, unit, and the same backwards from b to a; at every other fraction between unit quaternions less than a right angle apart it is farther from zpl_quat_slerp than zpl_quat_nlerp is: before the middle it lags behind zpl_quat_nlerp, which lags behind zpl_quat_slerp. zpl_quat_nquad and zpl_quat_squad_approx start at p and end at q, and in the middle they are half way between the middles of p and q and of a and b, as is zpl_quat_squad where these exist; zpl_quat_squad starts at p and ends at q or -q if p and q, a and b, p and a, q and b differ by more than the sign; with a = p it can be NaN.", "quantifier": "every real quaternion and fraction", "why_tests_cant": "Quaternions and fractions are continua; equal quaternions are a case of measure zero.", "anchors": ["code/source/math.c: zpl_quat_lerp, zpl_quat_nlerp, zpl_quat_slerp, zpl_quat_slerp_approx, zpl_quat_nquad, zpl_quat_squad, zpl_quat_squad_approx"]}
{"id": "C97", "title": "Views and projections", "statement": "zpl_mat4_look_at and zpl_mat4_look_at_lh are rigid motions (distances, angles and orientation are kept) that bring the eye to the origin, the centre straight ahead onto the negative (lh: positive) z axis at its distance, and up into the plane x = 0 with y above 0, for centre other than eye and up not along the line of sight. zpl_mat4_ortho3d maps the box given onto the cube from -1 to 1, zpl_mat4_ortho3d_dx with depth from 0 to 1, zpl_mat4_ortho2d changes the sign of the depth. The four perspectives map the edges of the picture at every distance to -1 and 1. Depth: zpl_mat4_perspective takes near to -1 and far to 1, increasing; zpl_mat4_infinite_perspective takes near to -1, zpl_mat4_infinite_perspective_dx near to 0, increasing and approaching 1 without reaching it. zpl_mat4_perspective_dx takes near to (far-1)/(far-near) instead of 0, and far to 1 only if far is 1.", "quantifier": "every real eye, centre, up, box, lens, near, far and point", "why_tests_cant": "Points and parameters are continua.", "anchors": ["code/source/math.c: zpl_mat4_look_at, zpl_mat4_look_at_lh, zpl_mat4_ortho2d, zpl_mat4_ortho3d, zpl_mat4_perspective, zpl_mat4_infinite_perspective, zpl_mat4_ortho2d_dx, zpl_mat4_ortho3d_dx, zpl_mat4_perspective_dx, zpl_mat4_infinite_perspective_dx"]}
{"id": "C94", "title": "Clocks", "statement": "On Linux: zpl_sleep_ms asks nanosleep for exactly the milliseconds given. zpl_time_rel_ms never goes back between calls and is within 1.001 ms of the time since the first call (unless that was in the first millisecond of the clock, when the count starts again). The reading of the monotonic clock it uses is the whole number of milliseconds for the first 99 days, later that or one more, and never ahead of the clock by a microsecond or more (for 278 years). zpl_time_utc_ms is the whole number of milliseconds since 1601, or one more, and ahead of the clock by less than 4 microseconds until 2150. zpl_time_tz_ms differs from it by the time zone and one hour in summer exactly. zpl_time_win32_to_unix and zpl_time_unix_to_win32 undo each other. That the readings are always the whole number is false.", "quantifier": "every reading of the clock with 0 <= tv_sec within the ranges named and 0 <= tv_nsec < 10^9; every 32-bit number of milliseconds", "why_tests_cant": "A test sees the clock of its machine at one moment; the doubles used round differently after months of uptime and in the last microsecond of a millisecond.", "anchors": ["code/source/core/time.c: zpl__unix_gettime, zpl_time_rel_ms, zpl_time_utc_ms, zpl_sleep_ms, zpl_time_tz_ms", "code/header/core/time.h: zpl_time_win32_to_unix, zpl_time_unix_to_win32"]}
{"id": "C98", "title": "Rounding and remainders of doubles", "statement": "zpl_floor64 gives the floor of a double that fits into 64 bits exactly if it is not negative, or at most -2^53, or not whole and at most -2^-54: negative whole numbers above -2^53 give the next one below, numbers between -2^-54 and 0 give 0. zpl_ceil64 gives the ceiling of negative numbers and of numbers that are not whole; whole numbers from 0 up to 2^53 give the next one above. zpl_round64 gives the nearest whole number, halves away from 0, up to 2^52 with the exception of 1/2 - 2^-54 (which gives 1) and its opposite; odd numbers between 2^52 and 2^53 give the next one above. Infinities and NaN, and for floor and ceiling numbers of 2^63 and more, are undefined. zpl_abs64, zpl_sign64 and zpl_copy_sign64 do what they say. For whole numbers below 2^50, zpl_remainder64 gives x - q*y with q the nearest to x/y, and zpl_mod64 is the remainder with the sign of x exactly if it is at least half of |y|, otherwise |y| too much.", "quantifier": "every double (remainders: every pair of whole numbers below 2^50 in absolute value, the divisor and for zpl_mod64 the dividend not 0)", "why_tests_cant": "There are 2^64 doubles, and the cases that go wrong are single numbers or whole numbers that tests of rounding rarely use.", "anchors": ["code/source/math.c: zpl_floor64, zpl_ceil64, zpl_round64, zpl_remainder64, zpl_mod64, zpl_abs64, zpl_sign64, zpl_copy_sign64"]}
{"id": "C99", "title": "Random doubles", "statement": "For lower <= higher, both finite, zpl_random_range_f64 gives a number that is not below lower and not above lower + (higher - lower) as computed in doubles; it grows with the 64 random bits and reaches both ends. If higher - lower is exactly a double it is within the bounds. In general it is not: from -1 to 3*2^-54 the number 2^-52 may come out. If higher - lower overflows the result is infinite or NaN, whatever the bits.", "quantifier": "every state of the generator, all bounds", "why_tests_cant": "The highest results come up once in 2^53 calls.", "anchors": ["code/source/core/random.c: zpl_random_range_f64, zpl_random_gen_u64"]}
{"id": "C100", "title": "The quick reciprocal square root", "statement": "For every positive normal single a, zpl_quake_rsqrt gives a finite positive single y with y*sqrt(a) between 1 - 5e-6 and 1 + 4e-7; an error of -4.7e-6 does occur. This does not extend beyond the normal numbers: 2^-149 gives about a thousandth of the right value, 0 gives a finite number, and infinity gives infinity. For minus zero, and for exactly the negative numbers above -15643918/2^26 (about -0.233), the subtraction of ints overflows, which is undefined.", "quantifier": "every single (NaN is not modelled)", "why_tests_cant": "There are 2^31 positive singles, and the error of the first guess and of six roundings has to be bounded for all of them.", "anchors": ["code/source/math.c: zpl_quake_rsqrt"]}
{"id": "C101", "title": "Rounding and remainders of singles", "statement": "zpl_floor gives the floor of a single that fits into an int exactly if it is not negative, or neither whole nor of the form -(2^k - 2^(k-24)) with 0 <= k <= 22, or a multiple of 4 of at most -2^24. Negative whole numbers above -2^24 give the next one below; -(2^k - 2^(k-24)) gives -(2^k + 1), so -0.99999994f gives -2. zpl_ceil gives the ceiling exactly if the number is negative, or not whole, or a multiple of 4 of at least 2^24; other whole numbers give the next one (or the next single) above. zpl_round gives the nearest whole number, halves away from 0, up to 2^23 with the exception of 1/2 - 2^-25 (which gives 1) and its opposite; odd numbers between 2^23 and 2^24 give the next one above. Infinities and NaN are undefined, and so are floor and ceiling of numbers of 2^31 and more. zpl_copy_sign changes nothing but the sign, also of zeros and infinities. For whole numbers below 2^21, zpl_remainder gives x - q*y with q the nearest to x/y, and zpl_mod gives the remainder plus |y| if it is less than |y|/2 and |y| less the remainder otherwise, with the sign of x: it is right only if the remainder is exactly |y|/2.", "quantifier": "every single (remainders: every pair of whole numbers below 2^21 in absolute value, the divisor and for zpl_mod the dividend not 0)", "why_tests_cant": "The constant 0.9999999999999999f is 1, so that wrong results come from single numbers next to powers of two; tests of rounding use other numbers.", "anchors": ["code/source/math.c: zpl_floor, zpl_ceil, zpl_round, zpl_remainder, zpl_mod, zpl_copy_sign", "code/header/math.h: zpl_sign"]}
{"id": "C102", "title": "The quick exponential", "statement": "For every single x from -1 to 1, zpl_fast_exp(x) is a single that is at most x^6/600 + 1.2e-6 below exp(x) and at most 1.2e-6 above it; at 1 it is at least 0.0015 below, at 0 it is exactly 1. Beyond this range it may be negative: at -4 it is below -3.", "quantifier": "every single from -1 to 1", "why_tests_cant": "There are 2^31 such singles; the bound covers the cut-off series and nine roundings for all of them.", "anchors": ["code/source/math.c: zpl_fast_exp"]}
{"id": "C103", "title": "Differences of angles, degrees and radians", "statement": "In exact arithmetic zpl_angle_diff(a, b), for |b - a| = k tau + e with -tau/2 <= e < tau/2, gives tau/2 if e = -tau/2, 0 if e = 0, otherwise -|e| if b >= a and tau - |e| if b < a. So it leads from a to b (up to whole turns) exactly if e is 0 or -tau/2, or b >= a and e < 0, or b < a and e > 0, and is the shortest way only in the first three of these cases: a small turn d forwards is reported as -d, a small turn backwards as tau - d. zpl_to_degrees and zpl_to_radians are inverse to each other, linear, keep the order and turn 360 k into k tau. ZPL_TAU is the single nearest to two pi, and on singles the conversions are exact for whole, half and quarter turns.", "quantifier": "every two angles less than 2147483000 turns apart", "why_tests_cant": "The cases depend on the fraction of a turn and the order of the angles, over all pairs.", "anchors": ["code/source/math.c: zpl_angle_diff, zpl_to_degrees, zpl_to_radians"]}
{"id": "C104", "title": "Vectors with two, three and four coordinates", "statement": "In exact arithmetic: zpl_vecN_mag is the length, zero for the zero vector only, scales with the vector and satisfies the triangle and Cauchy-Schwarz inequalities. zpl_vecN_norm gives the vector of length one with the same direction, NaN for zero; zpl_vecN_norm0 the same, zero for zero. zpl_vecN_max is the largest coordinate. zpl_vec2_side(p, q, r) is zero exactly on the line through p and q, is the signed distance to the left of it times |q - p|, and does not change under rotations and translations. zpl_vec2_reflect about a unit normal preserves products, reverses the normal part and undoes itself. zpl_vec2_refract and zpl_vec3_refract scale the part along the surface by eta, but the normal part is eta (n.i)(1 - sqrt k): Snell's law holds exactly when that is -sqrt k, never straight through; where nothing is refracted they give NaN instead of zero. zpl_vec2_aspect_ratio is x / y, or 0 for y below 0.0001f. zpl_vecN_lerp moves uniformly from a to b; zpl_vec2_cslerp goes from a to b with the speed zpl_vec2_dcslerp, v0 at the start and v1 at the end.", "quantifier": "every vector, unit normal, parameter", "why_tests_cant": "Identities and inequalities over all real vectors.", "anchors": ["code/source/math.c: zpl_vec2_mag, zpl_vec3_norm, zpl_vec4_norm0, zpl_vec2_side, zpl_vec2_reflect, zpl_vec2_refract, zpl_vec2_lerp, zpl_vec2_cslerp, zpl_vec2_dcslerp"]}
{"id": "C105", "title": "Boxes in three dimensions, pieces and margins", "statement": "zpl_aabb3_contains tests the half-open box; zpl_aabb3_rect3 and zpl_rect3_aabb3 undo each other and keep the points. zpl_rect2_contains_vec2 tests the half-open rectangle whatever the signs of its sides, and zpl_rect2_intersects says whether two rectangles have a common point. zpl_aabb2_get_left, right, top and bottom give what the cut functions cut off: the points of the box less than b from that side. zpl_aabb2_add_left, right, top and bottom give the strip of width b outside of that side: it has no point in common with the box, and together they are the widened box.", "quantifier": "every box, rectangle, width and point", "why_tests_cant": "Quantifies over all points of the plane and of space.", "anchors": ["code/source/math.c: zpl_aabb3_contains, zpl_aabb3_rect3, zpl_rect3_aabb3, zpl_rect2_intersects, zpl_aabb2_get_left, zpl_aabb2_add_left"]}
{"id": "C106", "title": "Copying matrices", "statement": "zpl_mat3_copy and zpl_mat4_copy between matrices that do not overlap copy all entries and change nothing else. zpl_mat2_copy copies nine floats instead of four: it is undefined unless five more floats follow both matrices, and otherwise overwrites the five floats after the destination.", "quantifier": "every memory and every pair of addresses", "why_tests_cant": "Says that nothing else in memory changes, for all layouts.", "anchors": ["code/source/math.c: zpl_mat2_copy, zpl_mat3_copy, zpl_mat4_copy"]}
{"id": "C107", "title": "Heap statistics", "statement": "With ZPL_HEAP_ANALYSIS, after zpl_heap_stats_init and any history of zpl_alloc_align, zpl_free, zpl_resize_align and writes inside blocks in use, as long as the C library has memory: no call is undefined, zpl_heap_stats_used_memory is the sum of the sizes of the blocks in use and zpl_heap_stats_alloc_count their number, zpl_heap_stats_check passes exactly if no block is in use (and then all memory went back to the C library), and blocks overlap neither each other nor the records kept before them. Making a block smaller but not empty changes nothing, nor the statistics. Blocks are aligned as asked up to 32; from 64 on they never are: the address is 32 more than a multiple. When the C library gives NULL the allocator does not: it writes a record at NULL.", "quantifier": "every history of allowed calls, every size, every power of two as alignment, every answer of aligned_alloc(3) that keeps its contract", "why_tests_cant": "Quantifies over all histories and all placements of blocks by the C library.", "anchors": ["code/source/essentials/memory_custom.c: zpl_heap_allocator_proc, zpl_heap_stats_init, zpl_heap_stats_used_memory, zpl_heap_stats_alloc_count, zpl_heap_stats_check", "code/header/essentials/memory_custom.h: zpl_default_resize_align"]}
{"id": "C108", "title": "Environment variables", "statement": "After any history of zpl_set_env and zpl_unset_env with proper names (not empty, no =), zpl_get_env_buf, zpl_get_env and zpl_get_env_str give for each name the value the last change left: zpl_get_env a copy with its terminator, zpl_get_env_str a string, NULL if there is none. Changes with other names are silently ignored. Without memory zpl_get_env_str gives NULL but zpl_get_env copies to NULL.", "quantifier": "every environment, every history of changes, every name", "why_tests_cant": "Quantifies over all histories, names and values.", "anchors": ["code/source/core/misc.c: zpl_get_env, zpl_get_env_buf, zpl_get_env_str, zpl_set_env, zpl_unset_env"]}
{"id": "C109", "title": "Output of commands", "statement": "zpl_system_command returns 0 if the command cannot be started, otherwise 1, having copied the first buffer_len bytes of the output to the buffer and changed nothing else: there is no terminator, and if the output fills the buffer there is none at all. With a buffer shorter than buffer_len and more output than it holds it is undefined. zpl_system_command_str gives a string of the output without its zero bytes.", "quantifier": "every output, every buffer and length", "why_tests_cant": "Outputs and buffer contents are unbounded.", "anchors": ["code/source/core/misc.c: zpl_system_command, zpl_system_command_str"]}
{"id": "C110", "title": "What files hold", "statement": "In every history in which each zpl_file is opened (or made by zpl_file_temp) and closed before it is used again: zpl_file_close of an open file is defined and releases its descriptor and the copy of its name; open files have different descriptors; when all are closed the descriptors and the memory in use are those of the start, but each temporary file leaves a FILE object behind. Closing what could not be opened reports ZPL_FILE_ERROR_INVALID and does nothing. Modes other than READ, WRITE or APPEND, with or without RW, panic. Closing a file twice frees its name twice; closing a temporary file that could not be made, or a zeroed zpl_file, closes the standard input; closing a standard file twice closes whichever file was given its descriptor in between.", "quantifier": "every history over any number of files, every answer of the kernel and the allocator", "why_tests_cant": "Quantifies over all histories and all descriptor numbers the kernel may choose.", "anchors": ["code/source/core/file.c: zpl_file_new, zpl_file_open_mode, zpl_file_close, zpl_file_create, zpl_file_open, zpl_file_temp, zpl_file_get_standard, zpl_file_name"]}
{"id": "C111", "title": "Kinds of files", "statement": "On Unix zpl_fs_get_type is ZPL_DIR_TYPE_UNKNOWN if the path cannot be examined, ZPL_DIR_TYPE_FOLDER for directories, but also for block devices and sockets, and ZPL_DIR_TYPE_FILE for regular files, pipes and character devices.", "quantifier": "every mode that stat(2) can give", "why_tests_cant": "Tests meet regular files and directories only.", "anchors": ["code/source/core/file_misc.c: zpl_fs_get_type"]}
{"id": "C112", "title": "Formatted text in strings and buffers", "statement": "For every format of literal text and directives with an expansion (C55, C87): zpl_string_append_fmt appends the expansion if it has fewer than 65534 bytes, or returns NULL when there is no memory, and appends nothing if it has exactly 65534; zpl_string_sprintf and zpl_string_sprintf_buf make a string of it wherever it fits into the buffer, also where zpl_snprintf reports -1; zpl_bprintf leaves it with a NUL in its static buffer in every history of calls, whatever was printed before; zpl_asprintf puts it with a NUL into a block of exactly its size and returns its length plus one, or -1 (with the complete text) for 65535 bytes, and faults without memory.", "quantifier": "every format and arguments, every string appended to, every history of the static buffers, every allocator", "why_tests_cant": "Quantifies over formats, arguments and earlier contents of the buffers; the boundary is at 64 KiB.", "anchors": ["code/source/core/stringlib.c: zpl_string_append_fmt, zpl_string_sprintf, zpl_string_sprintf_buf", "code/source/core/print.c: zpl_bprintf_va, zpl_asprintf_va", "code/source/essentials/memory_custom.c: zpl_alloc_str", "code/header/essentials/memory_custom.h: zpl_alloc_str_len"]}
{"id": "C113", "title": "Documents written into strings", "statement": "zpl_json_write_string returns a string of exactly what zpl_json_write prints, or NULL if memory is missing, and keeps nothing; but if the writing fails the two blocks of its stream are never released. zpl_csv_write_string and zpl_uri_write_string return a string of those printed pieces for which there was memory, so that without memory the text may have holes, and fault if the stream cannot be opened. With memory, parsing the string gives back the document, table or URI as in C51 to C53.", "quantifier": "every document, every way the printing is cut into pieces, every allocator and every answer to each request for memory", "why_tests_cant": "Failures of memory in the middle of writing cannot be provoked by ordinary tests; quantifies over all documents.", "anchors": ["code/source/parsers/json.c: zpl_json_write_string", "code/source/parsers/csv.c: zpl_csv_write_string_delimiter", "code/source/parsers/uri.c: zpl_uri_write_string"]}
{"id": "C114", "title": "Archives of directories", "statement": "zpl_tar_pack_dir packs, in listing order, every path below the directory except entries whose names begin with two dots. If these are files with paths of at most 12 bytes and the space suffices it returns 0, and the archive unpacks to exactly these files and contents. A missing or empty directory gives an empty archive and 0. A subdirectory is packed like a file: after its header the call fails with -2 and leaves the archive without an end; a size of a directory at the top of the range overflows. The default unpack callback makes every directory in which the file lies that is missing, and nothing else, unless a file is in the way.", "quantifier": "every file system, listing, contents of files and archive", "why_tests_cant": "Quantifies over trees of files and their contents; what reading a directory does depends on the system.", "anchors": ["code/source/core/file_tar.c: zpl_tar_pack_dir, zpl_tar_default_unpack_file"]}
{"id": "C115", "title": "Arenas within arenas and copying allocations", "statement": "Whatever is done with an arena on aligned memory and the arenas made within it by zpl_arena_init_sub to any depth (requests with the default alignment, resets, releases, writes by the users), all blocks held by users lie in the memory of their arena, are aligned and do not overlap, no byte of a held block changes except by its user, and nothing outside the memory is touched. Making an arena succeeds exactly if the rounded size fits; otherwise the arena made is at NULL and hands out addresses that are not memory. Releasing an inner arena gives nothing back; an arena on any other allocator gives its block back, once. zpl_arena_check passes exactly when all snapshots have ended. zpl_alloc_copy makes a new disjoint block with the same bytes or returns NULL, zpl_alloc_copy_align takes the block which the allocator gives for the alignment.", "quantifier": "every sequence of operations on a tree of arenas of any depth, every memory", "why_tests_cant": "Quantifies over all histories of a tree of arenas.", "anchors": ["code/header/essentials/memory_custom.h: zpl_arena_init_from_allocator, zpl_arena_init_sub, zpl_arena_free, zpl_arena_check, zpl_alloc_copy"]}
{"id": "C116", "title": "Atomic operations", "statement": "On x86-64, for any number of threads and any interleaving of their instructions with stores delayed in buffers: each compare-exchange, exchange, fetch-add, fetch-and and fetch-or that returns r has made exactly one write, in one moment, from r to the value computed from r (a failed compare-exchange none, and r was the value at some moment of the call), memory changes by no other writes, and earlier stores of the thread have reached memory. It takes at most five instructions per write to memory made meanwhile, and its thread alone can always finish it. A counter ends at the sum of all additions modulo 2^w, and additions of 1 hand out consecutive numbers. Stores reach memory once and in order, but possibly after they return, so that another thread still loads the old value.", "quantifier": "every number of threads, every sequence of operations and operands, every interleaving and delay of stores", "why_tests_cant": "Quantifies over interleavings of instructions and delays of stores, which tests cannot control.", "anchors": ["code/source/threading/atomic.c: zpl_atomic32_load to zpl_atomic32_fetch_or, zpl_atomic64_load to zpl_atomic64_fetch_or, zpl_atomic_ptr_load to zpl_atomic_ptr_fetch_or"]}
{"id": "C117", "title": "Mutexes and semaphores", "statement": "For any number of threads calling the functions of a mutex and a semaphore in any order, on Unix: at most one thread holds the mutex at any time; zpl_mutex_lock returns exactly if nobody holds it (its holder waits for ever); zpl_mutex_try_lock always returns, 0 together with the lock if nobody held it and a positive number if somebody does, so read as the truth value its type says the answer is inverted (as is that of zpl_mutex_init); unlocking is defined for the holder alone. Never more waits come back than units were posted; up to 2^31 - 1 units none is lost: once the posts have returned a waiting thread goes on, and zpl_semaphore_trywait returns 0, exactly if fewer units were taken than posted. Signals do not end a wait. A post with a count below one posts nothing, but -2^31 is undefined behaviour; units above 2^31 - 1 are lost silently.", "quantifier": "every number of threads, every sequence of calls and counts, every interleaving and any signals", "why_tests_cant": "Quantifies over all interleavings of the rounds of posting and waiting with signals.", "anchors": ["code/source/threading/mutex.c: zpl_mutex_init, zpl_mutex_lock, zpl_mutex_try_lock, zpl_mutex_unlock", "code/source/threading/sem.c: zpl_semaphore_init, zpl_semaphore_post, zpl_semaphore_release, zpl_semaphore_wait, zpl_semaphore_trywait"]}
{"id": "C118", "title": "Making and removing directories", "statement": "On Unix, for a path whose length and names the system allows: zpl_path_mkdir succeeds exactly if nothing is at the path, its parent is a directory and writing there is allowed, and then the tree has exactly that one directory more; zpl_path_rmdir succeeds exactly if an empty directory other than the root is there and may be removed, and then exactly that directory is gone; otherwise nothing changes and the result is zpl_file_error's reason: EXISTS, PERMISSION, NOT_EMPTY, NOT_EXISTS. What was made can be removed, and then all is as before. Paths of 4096 bytes or more and names above 255 bytes give NAME_TOO_LONG. But zpl_path_mkdir reports a missing parent as UNKNOWN where zpl_path_rmdir says NOT_EXISTS, and a file given to rmdir, or in the way, is UNKNOWN.", "quantifier": "every tree of files and directories, every path", "why_tests_cant": "Quantifies over all trees and paths.", "anchors": ["code/source/core/file_misc.c: zpl_path_mkdir, zpl_path_rmdir"]}
{"id": "C119", "title": "Full names of paths", "statement": "On Unix zpl_path_get_full_name returns, with any allocator that has memory, a block of that allocator holding the full path realpath gives, or the path itself if the file does not exist, ended by a NUL, and changes nothing else, except that it then frees realpath's block with the caller's allocator: that block came from malloc, so with an arena it is never given back, and a pool takes it for one of its own and hands it out next. Without memory the function writes to the address given by the length of the text.", "quantifier": "every allocator, memory, path and full path", "why_tests_cant": "Quantifies over all allocators and memories; with the heap allocator the wrong release is invisible.", "anchors": ["code/source/core/file_misc.c: zpl_path_get_full_name"]}
{"id": "C120", "title": "Sockets", "statement": "On Unix zpl_socket_create gives a socket exactly if the first address of the host can be opened and all that was asked for is allowed (binding, switching to non-blocking, connecting, which may fail for a non-blocking socket); the socket is then as asked for, has the smallest free descriptor, and nothing else changes; the memory of getaddrinfo is always released. But if binding, switching or connecting fails, the descriptor stays open and its number is lost: after as many such failures as there are descriptors no socket can be made or accepted. The further addresses of the host are not tried. Otherwise the open descriptors are those the program holds: zpl_socket_accept adds one, zpl_socket_close closes that one only. zpl_socket_receive gives the first bytes waiting, at most as many as asked for; zpl_socket_receive_from takes the message away but always fails, and so does zpl_socket_get_address.", "quantifier": "every system, every sequence of creating, accepting and closing, every message", "why_tests_cant": "Quantifies over all answers of the system and all sequences of calls; leaks show only when descriptors run out.", "anchors": ["code/source/socket.c: zpl_socket_create, zpl_socket_close, zpl_socket_accept, zpl_socket_receive, zpl_socket_receive_from, zpl_socket_get_address"]}
{"id": "C121", "title": "Waiting for sockets", "statement": "On Unix zpl_socket_select and zpl_socket_multi_select wait for the given number of seconds cut off to microseconds (up to a billionth of a microsecond, always 0 to 999999 of them); times of a microsecond or more below zero give -1, shorter negative ones do not wait, times that do not fit into a long, infinities and NaN are undefined behaviour. zpl_socket_select gives 1 if the socket can be read within the time, 0 if not, -1 if it is not open; zpl_socket_multi_select gives how many different ones of its sockets can be read, skipping negative ones, and -1 if one is not open. For one socket both agree, except below -1. Descriptors from 1024 on are undefined behaviour. Which sockets can be read is not told.", "quantifier": "every double as time, every list of sockets and state of the descriptors", "why_tests_cant": "2^64 times and all lists of sockets; the bound on the microseconds rests on rounding.", "anchors": ["code/source/socket.c: zpl_socket_select, zpl_socket_multi_select"]}
{"id": "C122", "title": "Elementary functions without math.h", "statement": "With ZPL_NO_MATH_H under MSVC, in exact arithmetic: zpl_sin is within 0.0009 and zpl_cos within 0.0025 of sine and cosine from 0 to 2 pi, but beyond that range leave [-1, 1]; zpl_tan is within 3e-8 between -45 and 45 degrees; zpl_arctan is within 5e-6 on [-1, 1] and negative at 3. zpl_arctan2(y, x) is within 5e-6 of the angle of (x, y) for x > 0 or |y| < |x|, and otherwise of the angle of (-x, y). So zpl_arcsin is right everywhere, zpl_arccos(a) is right for a > 0 and for a < 0 with a^2 > 1/2, a > -1, gives the arc cosine of -a when a^2 <= 1/2, a <= 0, and -pi at -1. zpl_exp(-a) = 1 / zpl_exp(a), and zpl_exp is within 7.5 per cent of the exponential for |a| <= 88; zpl_log is within 0.041 of the logarithm for every positive normal single. With these, zpl_exp2 is within 8 per cent for |x| <= 126 and zpl_log2 within 0.06 of the logarithm to base two, but for a power of two 2^k it is at least 0.05 above k. zpl_pow is right for whole exponents, but for a fractional one it multiplies by zpl_exp of the fraction: zpl_pow(a, 1/2) is the same for all a.", "quantifier": "every real argument in the given ranges", "why_tests_cant": "Error bounds over whole intervals; sampling cannot exclude a larger error between the samples.", "anchors": ["code/source/math.c: zpl_sin, zpl_cos, zpl_tan, zpl_arcsin, zpl_arccos, zpl_arctan, zpl_arctan2, zpl_exp, zpl_pow"]}

{"id": "C01", "title": "Read-your-writes over any editing history", "statement": "After any sequence of successful and failed set / remove calls on single-valued fields of one modifiable tuple, reading a field gives exactly the value of the last successful set of that field, or 'absent' when it was never set or was removed after its last set.", "quantifier": "all sequences of set/remove operations of any length, all field tags, all payload sizes, all buffer sizes and index limits", "why_tests_cant": "Tests replay a handful of fixed histories; the holes left by removals can be split, merged and reused in unboundedly many orders.", "anchors": ["src/gear.cxx: alloc_loose, release_loose, realloc_data", "fast_positive/tuples/details/rw.h: assign_field_value, accessor_rw::remove", "fast_positive/tuples/details/getter.h: crtp_getter::at"]}
{"id": "C02", "title": "A write touches only its own field", "statement": "A set, insert, update or erase of one field never changes the bytes, type or presence of any other field of the tuple (including other members of the same collection).", "quantifier": "all reachable tuple states, all operations, all other fields", "why_tests_cant": "The failure needs a particular layout of free chunks; the number of layouts is unbounded.", "anchors": ["src/gear.cxx: alloc_data, alloc_loose, merge_holes, release_data, realloc_data", "fast_positive/tuples/details/rw.h: append_field, assign_field_value"]}
{"id": "C03", "title": "A failed write is a no-op", "statement": "When a set, insert or remove call fails because there is no room, the tuple is exactly as before the call: same fields, same free space and junk counters.", "quantifier": "all reachable tuple states and all requests that end with insufficient_space", "why_tests_cant": "Every throw point must be reached in every possible state; tests hit only a few.", "anchors": ["src/gear.cxx: realloc_data, release_data, index_alloc, tail_alloc", "fast_positive/tuples/details/rw.h: assign_field_value, erase(field_preplaced*)"]}
{"id": "C04", "title": "Every payload lies inside the buffer and overlaps no other", "statement": "At every moment the payload of every field of a modifiable tuple lies inside the data area of the buffer, and the payloads of two different fields never share a byte.", "quantifier": "all reachable tuple states", "why_tests_cant": "Overlap is silent until an unlucky write happens; needs an invariant over all histories.", "anchors": ["src/gear.cxx: alloc_loose, alloc_data, tail_alloc", "fast_positive/tuples/details/field.h: relative_offset"]}
{"id": "C05", "title": "Junk counters are exact", "statement": "The reported junk space equals exactly the units occupied by removed fields, the reported free space equals exactly the unallocated tail, and live data + junk + free space always adds up to the capacity.", "quantifier": "all reachable tuple states", "why_tests_cant": "Counters are 16-bit and are updated in about fifteen places; drift shows up only after long histories.", "anchors": ["src/gear.cxx: junk_ updates", "fast_positive/tuples/details/rw.h: junk_units, tail_space_units, head_space, brutto_size, netto_size", "src/compat_rw.cxx: fptu_junkspace"]}
{"id": "C06", "title": "No spurious out-of-space", "statement": "Inserting a field whose payload takes n units succeeds whenever n units are free at the tail and an index slot is free; after compaction it succeeds whenever live data + n fits the capacity and an index slot is free.", "quantifier": "all reachable tuple states, all n", "why_tests_cant": "Needs reasoning about all states, not examples.", "anchors": ["src/gear.cxx: alloc_loose, compactify", "src/autogrowth.cxx: manage_space_deficit"]}
{"id": "C07", "title": "Compaction keeps every field and reclaims all junk", "statement": "Defragmenting a tuple leaves every field readable with the same type, number and value, in the same relative order, leaves no junk, and frees exactly the junk that was reported before.", "quantifier": "all reachable tuple states (any number and layout of holes and fields)", "why_tests_cant": "Compaction moves overlapping memory for arbitrary layouts.", "anchors": ["src/gear.cxx: compactify, overlapped_copy, compact_item", "src/compat_rw.cxx: fptu_shrink"]}
{"id": "C08", "title": "Sorting the index keeps every field", "statement": "Sorting the index of a tuple leaves every field readable with the same value and only reorders the index.", "quantifier": "all reachable tuple states", "why_tests_cant": "Index sizes and contents are unbounded.", "anchors": ["src/gear.cxx: gear::sort, sort_item"]}
{"id": "C09", "title": "Serialise / parse round trip", "statement": "Taking the serialised form of a modifiable tuple and building a new modifiable (or read-only) tuple from it gives a tuple with exactly the same fields and values.", "quantifier": "all reachable tuple states and all reservation parameters accepted by the constructor", "why_tests_cant": "Sizes and layouts are unbounded; 16-bit size fields can wrap only at extreme sizes.", "anchors": ["src/rw.cxx: take_asis, tuple_rw(ro...), create_from_ro, fetch_legacy", "fast_positive/tuples/details/field.h: stretchy_value_tuple"]}
{"id": "C10", "title": "Whatever the library builds passes validation", "statement": "The serialised form taken from any tuple built through the API is accepted by the validator, which reports exactly the number and volume of holes the tuple has.", "quantifier": "all reachable tuple states", "why_tests_cant": "The validator's interval map must accept every insertion order.", "anchors": ["src/audit.cxx: audit_tuple, auditor::map_insert, check_loose", "src/rw.cxx: take_asis"]}
{"id": "C11", "title": "An accepted image is memory-safe to read", "statement": "If the validator accepts a serialised tuple of arbitrary bytes, then the payload of every field in it (and every hole) lies inside the image and no two of them overlap.", "quantifier": "all byte images of any size", "why_tests_cant": "Hostile inputs are unbounded; fuzzing cannot cover them.", "anchors": ["src/audit.cxx: auditor::map_insert, check_chunk, check_loose, audit_tuple, inline_lite_checkup"]}
{"id": "C12", "title": "Validation itself stays inside the image", "statement": "While validating an arbitrary byte image the validator never reads outside that image.", "quantifier": "all byte images of any size", "why_tests_cant": "Over-reads of a few bytes normally do not crash tests.", "anchors": ["src/audit.cxx: check_loose, check_chunk", "fast_positive/tuples/details/field.h: relative_payload::brutto_units"]}
{"id": "C13", "title": "Variable-length binary values round trip", "statement": "A binary value stored in a field is read back with the same length and bytes.", "quantifier": "all byte strings up to the documented limit", "why_tests_cant": "Every length residue and boundary must be checked.", "anchors": ["fast_positive/tuples/details/field.h: stretchy_value_varbin::store, length, estimate_space"]}
{"id": "C14", "title": "Strings round trip and stay NUL-terminated when space allows", "statement": "A string of any length from 0 to the limit is read back with the same length and bytes, occupies exactly the estimated number of units, and is followed by a zero byte whenever its last unit is not full.", "quantifier": "all byte strings with length from 0 to 131325", "why_tests_cant": "131326 lengths times all contents; the header format changes at 254.", "anchors": ["fast_positive/tuples/details/field.h: stretchy_value_string::store, length, brutto_units, begin", "src/compat_field.cxx: string_view_to_CAPI"]}
{"id": "C15", "title": "Over-long values are refused, never truncated", "statement": "Storing a string, binary or property value longer than its format can express is refused; a value that is accepted never has its length truncated.", "quantifier": "all value lengths", "why_tests_cant": "Boundary values of several formats; huge lengths are impractical in tests.", "anchors": ["fast_positive/tuples/details/field.h: estimate_space (string, varbin, property)"]}
{"id": "C16", "title": "Field lookup gives the same answer on every CPU", "statement": "Every implementation of the index scan (reference, unrolled, SSE2, AVX, AVX2) returns the first index entry with the requested tag, or 'not found' exactly when there is none.", "quantifier": "all index contents, all index lengths, all tags, all buffer alignments", "why_tests_cant": "Vector code has length- and alignment-dependent paths; CI machines run only one of them.", "anchors": ["src/scan_portable.cxx: fptu_scan_referential, fptu_scan_unroll", "src/scan_SSE2.cxx", "src/scan_AVX.cxx", "src/scan_AVX2.cxx"]}
{"id": "C17", "title": "Index scan never touches an unmapped page", "statement": "The vectorised scans read only memory in the same 4 KiB pages as the index being scanned.", "quantifier": "all index addresses, lengths and contents", "why_tests_cant": "A fault requires the index to end exactly at a page boundary.", "anchors": ["src/scan_SSE2.cxx", "src/scan_AVX.cxx", "src/scan_AVX2.cxx"]}
{"id": "C18", "title": "Field tokens never alias", "statement": "Type, column number / offset and the null, saturation and collection attributes can all be recovered from a token, and two definitions denote the same field exactly when type and number (or offset) agree.", "quantifier": "all types, ids, offsets and attribute combinations", "why_tests_cant": "About 2^32 combinations and pairs of them.", "anchors": ["fast_positive/tuples/essentials.h: make_tag, tag2genus, tag2id, tag2offset, normalize_tag, tag_same, tag_less", "fast_positive/tuples/token.h"]}
{"id": "C19", "title": "Null semantics of reads and writes", "statement": "For every field kind (preplaced or loose; fixed or variable size; null-distinguishing or not) writing a value and reading it back behaves as in the documented table: an empty value written to a non-distinguishing loose field removes it, reading an absent field gives the type's empty value or an error depending on the attribute.", "quantifier": "all field kinds, all values, all reachable states", "why_tests_cant": "Combinatorial table times all values.", "anchors": ["fast_positive/tuples/token.h: discernible null comment", "fast_positive/tuples/details/getter.h", "fast_positive/tuples/details/rw.h: assign_field_value", "fast_positive/tuples/details/meta.h: genus_traits"]}
{"id": "C20", "title": "Integer stores are exact or refused", "statement": "Storing an integer through the generic integer / unsigned / number setters either stores exactly that number (reading it back gives the same number) or is refused with a range or type error; nothing is ever silently changed.", "quantifier": "all 64-bit and 32-bit values and all numeric field types", "why_tests_cant": "2^64 values times ten field types.", "anchors": ["fast_positive/tuples/details/rw.h: set_integer, set_unsigned, set_number", "src/rw.cxx: insert_integer, insert_unsigned, insert_number"]}
{"id": "C21", "title": "Float to integer stores never invoke undefined conversion", "statement": "Storing a floating point number into an integer field is accepted only if the truncated value fits the field, so the conversion is always defined.", "quantifier": "all finite values, infinities and NaN of float and double, all integer field types", "why_tests_cant": "2^64 values; the bounds are one ulp away from overflow.", "anchors": ["fast_positive/tuples/details/rw.h: roundtrip_bounds, is_safe_roundtrip", "src/rw.cxx: insert_number(float/double)"]}
{"id": "C22", "title": "Schema definitions never collide", "statement": "After any sequence of successful field definitions, every name and every token is defined at most once, name lookup returns exactly the token given at definition, and the storage of different preplaced fields does not overlap.", "quantifier": "all sequences of definitions", "why_tests_cant": "Unbounded sequences and name/attribute combinations.", "anchors": ["src/schema.cxx: define_preplaced, define_loose, add_definition, get_next_loose_id, is_crossing, is_overlapped"]}
{"id": "C23", "title": "Schema lookups agree with a linear search", "statement": "The binary searches that map an offset or a loose tag to a schema token return exactly the token a linear search would find, or 'invalid' when there is none.", "quantifier": "all sorted token tables of any length and all keys", "why_tests_cant": "Hand-unrolled binary search with length-dependent paths.", "anchors": ["src/schema.cxx: search_preplaced, by_offset, by_loose, next_by_offset, prev_by_offset"]}
{"id": "C24", "title": "Shared buffers are freed exactly once", "statement": "However many threads concurrently copy and drop handles of one shared buffer, the buffer is given back to its allocator exactly once, after the last handle is dropped, and no handle holder ever sees a freed buffer.", "quantifier": "all numbers of threads and handles, all interleavings", "why_tests_cant": "Schedules are unbounded and the bad ones are rare.", "anchors": ["src/1Hippeus/buffer.cxx: add_reference, detach"]}
{"id": "C25", "title": "Buffers are at least as large as requested", "statement": "A successful buffer request yields a buffer whose usable size is at least the requested size, and the size recorded in the header is the true one.", "quantifier": "all requested sizes", "why_tests_cant": "Rounding arithmetic for every size.", "anchors": ["src/1Hippeus/allot_stdcxx.cxx: borrow, repay", "src/1Hippeus/buffer.cxx: init, borrow"]}
{"id": "C26", "title": "Time conversion is monotone and accurate to one unit", "statement": "Converting a time given in ns/us/ms/100ns to the internal 32.32 form and back yields the same seconds and a fraction that is at most one unit smaller; conversion preserves order; converted times never overflow the fraction.", "quantifier": "all unit counts representable in the seconds range", "why_tests_cant": "About 2^62 inputs.", "anchors": ["fast_positive/tuples/types/datetime.h: scale_in, units2fractional, fractional2units"]}
{"id": "C27", "title": "Binary comparison is a total order", "statement": "Comparing two byte sequences is reflexive, antisymmetric and transitive, reports equality exactly for equal sequences and otherwise gives the lexicographic order with a proper prefix first.", "quantifier": "all pairs and triples of byte strings", "why_tests_cant": "Order laws quantify over triples.", "anchors": ["src/compat_field.cxx: fptu_cmp_binary", "fast_positive/tuples/details/legacy_compat.h: cmp2lge, diff2lge"]}
{"id": "C28", "title": "String views have a consistent order, equality and hash", "statement": "String view comparison is a total order (shorter first, then bytewise), equality holds exactly for equal contents (with 'nil' distinct from empty), and equal views have equal hashes.", "quantifier": "all pairs and triples of views", "why_tests_cant": "Order laws quantify over triples.", "anchors": ["fast_positive/tuples/string_view.h: compare, hash_value"]}
{"id": "C29", "title": "Auto-growing tuples find room", "statement": "When an auto-growing tuple lacks index or data space but the total with junk fits, making room moves the index/data border so that the retried operation succeeds and no field changes.", "quantifier": "all tuple states and all shortages", "why_tests_cant": "Proportional split arithmetic must be right for all counts.", "anchors": ["src/autogrowth.cxx: manage_space_deficit"]}
{"id": "C30", "title": "Growing or cloning a tuple keeps its bookkeeping", "statement": "After a tuple is copied to a larger buffer its junk counters describe the copied contents, so later operations behave as on the original.", "quantifier": "all reachable tuple states", "why_tests_cant": "The mismatch is only visible after further removals on the copy.", "anchors": ["src/autogrowth.cxx: manage_space_deficit", "src/compat_rw.cxx: fptu_fetch", "src/managed.cxx: clone", "src/rw.cxx: create_from_ro"]}
{"id": "C31", "title": "The estimated buffer size is sufficient", "statement": "A tuple created in a buffer of the size computed for n fields and b bytes of data can take n fields with b bytes of payload in total.", "quantifier": "all n and b accepted by the estimator", "why_tests_cant": "Sizes are unbounded; rounding must be right for all.", "anchors": ["fast_positive/tuples/details/rw.h: estimate_required_space, tuple_rw ctor", "src/compat_common.cxx: fptu_space"]}
{"id": "C32", "title": "Erase by column and filter removes exactly the matching fields", "statement": "Erasing by column and type or type mask removes every field that matches and no other, and returns how many were removed.", "quantifier": "all tuples, all columns, all types and masks", "why_tests_cant": "The loop deletes while scanning; the index head moves under it.", "anchors": ["src/compat_rw.cxx: fptu_erase", "src/compat_common.cxx: fptu_first, fptu_next, match"]}
{"id": "C33", "title": "Iteration visits each field exactly once", "statement": "Iterating over the loose fields of a tuple visits every field exactly once, in both directions, and shows only fields that exist.", "quantifier": "all tuples", "why_tests_cant": "Boundary cases: empty index, holes.", "anchors": ["fast_positive/tuples/details/ro.h: loose_iterator_ro, field_iterator_ro", "src/ro.cxx"]}
{"id": "C34", "title": "Tagged pointers keep both parts", "statement": "A tagged pointer returns exactly the pointer and the tag that were stored in it.", "quantifier": "all aligned pointers and all tags in range", "why_tests_cant": "All pointer values times all tags.", "anchors": ["fast_positive/tuples/details/tagged_pointer.h: narrow_tagged_pointer_base, wide_tagged_pointer_base"]}
{"id": "C35", "title": "Bulk memory helpers respect their bounds", "statement": "Polluting a memory range changes only bytes inside it and polluting twice with the same mask restores it; the zero test is true exactly when all bytes of the range are zero.", "quantifier": "all addresses, lengths, masks and contents", "why_tests_cant": "Alignment-dependent partial-word masks.", "anchors": ["src/1Hippeus/utils.cxx: uintptr_applier, pollute, is_zeroed"]}
{"id": "C36", "title": "Wide arithmetic and byte order helpers are exact", "statement": "The portable 64x64 to 128 bit multiplication and carry addition return the exact result, byte swapping reverses the bytes and is its own inverse, and the portable leading-zero count is exact.", "quantifier": "all 64-bit operands", "why_tests_cant": "2^128 operand pairs.", "anchors": ["fast_positive/erthink/erthink_mul.h: mul_64x64_128", "fast_positive/erthink/erthink_carryadd.h", "fast_positive/erthink/erthink_bswap.h", "fast_positive/erthink/erthink_clz.h"]}
{"id": "C37", "title": "Integer formatting is exact", "statement": "Formatting an integer in decimal yields its canonical decimal representation without leading zeros, within the documented number of characters.", "quantifier": "all 64-bit values", "why_tests_cant": "2^64 values.", "anchors": ["fast_positive/erthink/erthink_u2a.h: u2a, i2a, dec2..dec8"]}
{"id": "C38", "title": "Nested tuples are stored and read back verbatim", "statement": "A tuple stored as a nested field is read back with identical contents.", "quantifier": "all valid tuples that fit", "why_tests_cant": "Contents and sizes are unbounded.", "anchors": ["fast_positive/tuples/details/field.h: stretchy_value_tuple::store", "src/compat_rw.cxx: fptu_upsert_nested, fptu_insert_nested"]}
{"id": "C39", "title": "Collections behave as multisets", "statement": "Inserting into a collection adds exactly one value, erasing one element removes exactly that one, and enumerating the collection lists exactly the current values.", "quantifier": "all histories of inserts and erases on all tags", "why_tests_cant": "Unbounded histories.", "anchors": ["fast_positive/tuples/details/getter.h: collection_iterator_ro", "fast_positive/tuples/details/rw.h: collection_rw", "src/rw.cxx: insert_*, erase"]}
{"id": "C40", "title": "Clearing a tuple makes it empty again", "statement": "Clearing a tuple succeeds and leaves a tuple equivalent to a freshly created one of the same capacity.", "quantifier": "all reachable tuple states, all index limits", "why_tests_cant": "All states; includes corner capacities.", "anchors": ["src/rw.cxx: tuple_rw::reset", "src/compat_rw.cxx: fptu_clear"]}
{"id": "C41", "title": "Presence test tells the truth", "statement": "The presence query of a field returns true exactly when reading a null-distinguishing field would not report absence.", "quantifier": "all fields of all reachable tuples", "why_tests_cant": "All values and kinds of field.", "anchors": ["fast_positive/tuples/details/getter.h: accessor_ro::exist, crtp_getter::have", "src/tablets.cxx: field_preplaced::is_null"]}
{"id": "C42", "title": "Byte-pattern predicates", "statement": "The zero and all-ones tests used to detect empty and null values are true exactly when every byte is 0x00 (respectively 0xFF), for every width.", "quantifier": "all widths supported and all contents", "why_tests_cant": "Mixed-width loads with sign extension over all contents.", "anchors": ["fast_positive/tuples/details/utils.h: bytes_disjunction, bytes_conjunction, is_zero, is_allones"]}
{"id": "C43", "title": "On-stack arena never hands out overlapping memory", "statement": "The on-stack allocator used by compaction and validation returns chunks that lie inside the arena or come from the heap, never overlap live chunks, and returns every chunk to where it came from; the count of used bytes tells what is left, and is zero again when every chunk was given back.", "quantifier": "all sequences of allocate/deallocate calls", "why_tests_cant": "Sequences are unbounded.", "anchors": ["fast_positive/erthink/erthink_short_alloc.h: allocation_arena::allocate, deallocate"]}
{"id": "C44", "title": "Buffer tags keep allocator identity and flags", "statement": "A buffer tag built from an allocator id, depot, crate and flags (or from an allocator pointer) returns exactly those parts.", "quantifier": "all field values in range", "why_tests_cant": "2^64 combinations.", "anchors": ["fast_positive/tuples/1Hippeus/buffer.h: buffer_tag"]}
{"id": "C45", "title": "Update changes only existing fields, upsert always stores", "statement": "Legacy update of a field that is absent reports 'no such field' and changes nothing; update of an existing field replaces its value; upsert stores the value whether or not the field exists, and never creates a second instance.", "quantifier": "all reachable tuples, all columns, types and values", "why_tests_cant": "All states and histories.", "anchors": ["src/compat_rw.cxx: fptu_upsert_*, fptu_update_*", "fast_positive/tuples/details/rw.h: legacy_update_*"]}
{"id": "C46", "title": "Integer reads are exact", "statement": "Reading any integer field through the generic integer, unsigned and floating getters gives exactly the stored number or is refused.", "quantifier": "all values of all numeric field types", "why_tests_cant": "2^64 values.", "anchors": ["fast_positive/tuples/details/getter.h: get_integer, get_unsigned, get_number_as_ieee754double"]}
{"id": "C47", "title": "Fields inside preplaced structures are aligned so that references resolve", "statement": "A variable-length preplaced field defined through the schema reads back the payload that was stored in it, wherever in the structure it is placed.", "quantifier": "all schemas and all placements of variable-length preplaced fields", "why_tests_cant": "Depends on the size of the fields defined before it.", "anchors": ["src/schema.cxx: define_preplaced", "fast_positive/tuples/details/field.h: relative_offset::set_payload, payload"]}
{"id": "C48", "title": "empty() and the field count tell the truth", "statement": "A tuple without preplaced part reports itself empty exactly when no field can be read from it, and the reported number of loose fields is exactly the number of fields that exist, whatever was inserted and removed before.", "quantifier": "for all editing histories and all resulting states of a modifiable tuple", "why_tests_cant": "Emptiness is computed from the head, tail and junk counters only, so it depends on every trim/merge decision of the whole history.", "anchors": ["fast_positive/tuples/details/rw.h:1093-1135", "src/gear.cxx:170-207", "src/gear.cxx:331-364"]}
{"id": "C49", "title": "Memory guards tell intact from damaged", "statement": "A memory guard that was set up passes its check whatever the clock gave; a guard that was deliberately invalidated, blanked, or whose derived word was changed in any way, or that was changed in any one bit or byte, never passes.", "quantifier": "all clock values, signatures and damaged values", "why_tests_cant": "2^96 combinations of clock, signature and damage.", "anchors": ["src/1Hippeus/hipagut.cxx: hipagut_setup, hipagut_probe, mixup, fairly"]}
{"id": "C50", "title": "Size classes are the tightest that fit", "statement": "Choosing a size class returns the smallest class that is at least the wanted size, or the largest class when none is.", "quantifier": "all sizes and all class tables (lower bound, step, number of classes)", "why_tests_cant": "Shift arithmetic near the word size for every table.", "anchors": ["src/1Hippeus/utils.cxx: log2size"]}
{"id": "C51", "title": "Replacement string routines conform to the C standard", "statement": "The replacements of memcmp, strcmp, strncmp, strlen and strnlen give the sign of the first difference (resp. the exact length) for every alignment of their arguments and depend only on the bytes they may look at.", "quantifier": "all contents, lengths and address alignments", "why_tests_cant": "The word-wise paths depend on both addresses and the length; the port runs on one rare CPU.", "anchors": ["src/misc.cxx: mdbx_e2k_memcmp_bug_workaround, mdbx_e2k_strcmp_bug_workaround, mdbx_e2k_strncmp_bug_workaround, mdbx_e2k_strlen_bug_workaround, mdbx_e2k_strnlen_bug_workaround"]}
{"id": "C52", "title": "Hexadecimal dumps are faithful", "statement": "A hexadecimal dump consists of exactly two lowercase hexadecimal digits per byte, from which the bytes can be read back.", "quantifier": "all byte strings", "why_tests_cant": "All lengths and contents.", "anchors": ["src/misc.cxx: hexadecimal"]}
{"id": "C53", "title": "Reduced-precision time clears exactly the bits asked for", "statement": "Asking for the current time with n reserved low bits returns a time whose n low bits are zero, which is not later than the clock and behind it by less than 2^n ticks; without reservation the clock is returned unchanged.", "quantifier": "all clock readings, all arguments", "why_tests_cant": "The clock cannot be controlled; shifts by 31/32 bits are corner cases.", "anchors": ["src/time.cxx: fptu_now"]}
{"id": "C54", "title": "New tuples start with the declared initial values", "statement": "After any further definitions, the preplaced image of a schema holds for each field exactly the initial value given at its definition, or a value that reads as absent (or zero) when none was given.", "quantifier": "all sequences of definitions, all types and initial values", "why_tests_cant": "Later definitions extend the same byte string; any order and number of them must leave earlier bytes alone.", "anchors": ["src/schema.cxx: add_definition, define_preplaced, import_definition", "fast_positive/tuples/details/meta.h: preplaced_erase"]}
{"id": "C55", "title": "Legacy lookup and count find exactly the asked fields", "statement": "Looking up or counting fields by column and type, or by column and type mask, takes into account exactly the fields with that column whose type is the asked one or belongs to the mask; a lookup returns the matching field that comes first in the index, or nothing exactly if none matches; a caller's filter function is shown every field once and no deleted one.", "quantifier": "all tuples reachable by editing, all columns, types and masks", "why_tests_cant": "The condition packs type and column into 32 bits; only particular combinations run over, and the scans skip deleted entries whose position depends on the history.", "anchors": ["src/compat_common.cxx: is_filter, colid2tag, match, fptu_first, fptu_next, fptu_first_ex, count, count_ex", "src/compat_field.cxx: fptu_field_column", "fast_positive/tuples/legacy.h: fptu_filter_mask"]}
{"id": "C56", "title": "A field as a block of bytes is its value", "statement": "fptu_field_as_iovec returns a block that covers exactly the bytes of the value of the field, for every type.", "quantifier": "all types, all values", "why_tests_cant": "Each type has its own layout and length rule; a block of a wrong length often still begins with the right bytes.", "anchors": ["src/compat_field.cxx: fptu_field_as_iovec", "fast_positive/tuples/details/field.h: stretchy_value::length"]}
{"id": "C57", "title": "Stored text reads back as a C string", "statement": "The C string obtained for a text field is the stored text up to its first zero byte, whatever memory follows the field, and memory outside of the tuple is never looked at.", "quantifier": "all texts, all memory contents behind the field, all field types passed", "why_tests_cant": "A terminator is stored only when the last unit is not full; with other lengths a copy must be made, and what follows the field depends on the neighbours.", "anchors": ["src/compat_field.cxx: string_view_to_CAPI, fptu_field_cstr"]}
{"id": "C58", "title": "Stored binaries compare by their contents", "statement": "Comparing a stored binary field with a given value answers equal exactly if the stored bytes are those of the value, less or greater by the first byte that differs (a proper prefix being less), and incomparable only if the field is absent.", "quantifier": "all stored binaries, fixed or variable length, all values compared with, all memory behind the field", "why_tests_cant": "Order laws speak of all pairs; equality depends on the length read back and on the memory behind the field.", "anchors": ["src/compat_ro.cxx: fptu_cmp_96/128/160/256, fptu_cmp_opaque", "src/compat_common.cxx: fptu_cmp_binary", "fast_positive/tuples/details/legacy_compat.h: diff2lge, cmp2int, cmpbin"]}
{"id": "C59", "title": "Legacy getters tell absent fields from present ones", "statement": "A getter of the C interface returns the stored value of a field that is present, and reports 'no such field' for one that is absent.", "quantifier": "all reachable tuples, all columns and types", "why_tests_cant": "All states and histories; the report and the value travel on different ways.", "anchors": ["src/compat_ro.cxx: fptu_get_*", "fast_positive/tuples/details/getter.h"]}
{"id": "C60", "title": "Printed doubles read back", "statement": "The text written for any finite double, in the fast and in the accurate mode, reads back (correctly rounded) as exactly that double with its sign, and fits the buffer of d2a_max_chars bytes; zeros, infinities and not-a-number have their own texts.", "quantifier": "all 2^64 bit patterns of double, both modes", "why_tests_cant": "2^64 values; the digit generation relies on error bounds of truncated 64-bit products that fail, if at all, on a handful of values.", "anchors": ["fast_positive/erthink/erthink_d2a.h: grisu::convert, make_digits, diy_fp, ieee754_default_printer, d2a", "fast_positive/erthink/erthink_u2a.h: u2a, dec3"]}
{"id": "C61", "title": "Accurate mode prints the nearest decimal", "statement": "In the accurate mode the digits printed are the shortest that read back and the nearest to the value among those of the same length.", "quantifier": "all finite doubles", "why_tests_cant": "Failing values are rare (about one in ten thousand random ones or less) and look right on any single example.", "anchors": ["fast_positive/erthink/erthink_d2a.h: make_digits, adjust, comment at d2a"]}
{"id": "C62", "title": "Printer with decimal and exponential form", "statement": "shodan_printer, for any limits of the decimal form which its assertions admit, writes a text inside its buffer that reads back as exactly the double.", "quantifier": "all finite doubles, both modes, all template arguments admitted", "why_tests_cant": "The forms multiply with 2^64 values and with limits that no instantiation in the tests uses.", "anchors": ["fast_positive/erthink/erthink_d2a.h: shodan_printer"]}
{"id": "C63", "title": "Counters of buffers and the program's variables", "statement": "Whatever sequence of constructions, copies, moves, assignments, swaps, clones, growths and destructions is performed on the handles of tuples, throwing or not, the counter in the header of a buffer is the number of variables that refer to it; a buffer is given back exactly once, when the last of them goes; no call looks at memory that was given back; a call that throws leaves all variables as they were.", "quantifier": "all sequences of calls, any number of variables and buffers (fewer than 2^31-1 variables per buffer), all allocation failures", "why_tests_cant": "Lifetimes depend on the interleaving of copies, moves, self-assignments and exceptions; a wrong count shows up only as a leak or as a later crash elsewhere.", "anchors": ["src/managed.cxx", "fast_positive/tuples.h: tuple_ro_managed, tuple_rw_managed", "src/rw.cxx: tuple_rw::create_new, create_from_ro, deleter", "src/buffer.cxx: buffer::detach, add_reference"]}
{"id": "C64", "title": "Handles are isolated from each other", "statement": "A call changes what the variables it names show and nothing else: a readable handle shows the same tuple for as long as it exists, and a tuple that can be modified is alone in its buffer.", "quantifier": "all sequences of calls on any number of handles", "why_tests_cant": "Sharing between a writable and a readable handle is invisible until one writes; the number of ways to reach sharing is unbounded.", "anchors": ["fast_positive/tuples.h: get_nested_managed, release, purge", "src/managed.cxx: tuple_rw_managed(tuple_ro_managed&&)"]}
{"id": "C65", "title": "Copies, moves, clones and growth keep the contents", "statement": "A handle made from another handle, by copying, moving, cloning, assignment or conversion between readable and modifiable, shows the tuple the source showed; growing keeps data and schema; self-assignment changes nothing.", "quantifier": "all states of handles, all conversions", "why_tests_cant": "Conversions choose between stealing the buffer and copying by counters, flags and schemas; tests exercise the common ones.", "anchors": ["src/managed.cxx: clone, operator=, tuple_rw_managed(tuple_ro_managed&&)", "fast_positive/tuples.h: operator="]}
{"id": "C66", "title": "Copies carry valid schema and counters of junk", "statement": "Every buffer a handle refers to holds a tuple that conforms to the schema stored with it, and its counters of junk fields and junk units are those of its data.", "quantifier": "all calls and all states in which it held before", "why_tests_cant": "A schema that does not fit or a lost counter becomes visible only in later operations on the copy.", "anchors": ["src/managed.cxx:436-483 (clone)", "src/rw.cxx: create_from_ro, create_from_buffer", "src/autogrowth.cxx:133-148, 183-198 (growth)"]}
{"id": "C67", "title": "optimize() reports whether iterators became invalid and runs when asked", "statement": "optimize() returns false only if nothing moved in the index, and true only if it did; take_weak(), take_managed_clone() and move_to_ro() optimize unless asked not to; the readable view has the same fields either way.", "quantifier": "all states of tuples, all flags", "why_tests_cant": "Iterators that stay valid by luck hide a wrong answer; the flag is a default argument nobody passes in the tests.", "anchors": ["src/gear.cxx:985-1002", "fast_positive/tuples.h:846-894"]}
{"id": "C68", "title": "Type numbers, filters, tags and names of the C interface agree", "statement": "Every constant of fptu_type is the tag of its own field type; every filter selects exactly the types its name says; a tag made from a column and a type gives both back whatever the width of fptu_tag_t; distinct types have distinct names and every constant has a name of its own.", "quantifier": "all type constants, all 32 field types, all columns, all three widths of uint_fast16_t, all 32-bit type values", "why_tests_cant": "Tests look at two constants and two columns; a filter with one bit too many or a width-dependent tag shows only on other types and platforms.", "anchors": ["fast_positive/tuples/legacy.h:199-277", "fast_positive/tuples/details/legacy_compat.h:23-25, 106-125", "src/compat_common.cxx:186-247", "src/misc.cxx:211-247", "src/debug.cxx:290-309"]}
{"id": "C69", "title": "The text of a date names the nearest nanosecond", "statement": "to_string(datetime) gives 29 characters that read as an existing date and time of the Gregorian calendar; read back they are the whole number of nanoseconds nearest to the value, the carry of rounding included; texts are ordered as the times are.", "quantifier": "all 2^64 values", "why_tests_cant": "Rounding up to the next second happens for two values of the fraction in 2^32, and only then do minute, day, month and year roll over.", "anchors": ["src/debug.cxx:311-341", "fast_positive/tuples/types/datetime.h:163-168"]}
{"id": "C70", "title": "Errors of the C interface are told faithfully", "statement": "A call tells success exactly when the library returned a value, through the returned code or through the integer the caller points at; a failure leaves the same code and the message as the last error of the thread; each cause has its own code and each code its text.", "quantifier": "all calls, all exception classes, with and without an error pointer", "why_tests_cant": "Rare exception classes and stale values behind the error pointer are never looked at.", "anchors": ["src/compat_common.cxx:21-56", "fast_positive/tuples/details/legacy_compat.h:60-84", "src/compat_ro.cxx:75-134", "src/debug.cxx:35-48", "fast_positive/tuples/details/exceptions.h:80-173"]}
{"id": "C71", "title": "How much room is asked for and how much is made", "statement": "An operation of an auto-growing tuple that fails for lack of room asks for an amount that is really missing; room made inside the buffer gives each side what it asked for and shares the rest in proportion to use; a new buffer has the smallest standard size that holds the doubled index and data; growth by realloc carries index, data and junk over.", "quantifier": "all tuple states reached by any calls, all operations, all requests", "why_tests_cant": "The proportional share and the choice of sizes depend on all counters at once; a request that is not really missing loops or wastes a copy only in rare layouts.", "anchors": ["src/autogrowth.cxx:21-347", "fast_positive/tuples/details/rw.h: throwing setters and space deficits", "src/gear.cxx: alloc_loose, realloc_data"]}
{"id": "C72", "title": "Bytes the validator accepts can be opened and edited", "statement": "A modifiable tuple opened from any accepted bytes has exactly the fields a reader of the bytes sees, satisfies all that the editing operations rely on, follows the last write under any later calls, and is accepted again when written out.", "quantifier": "all byte strings of unknown origin, all memory around them, all schemas, all later histories of calls", "why_tests_cant": "Tests open what the library wrote; bytes of another writer or of an attacker have shapes the library never makes, and the damage shows only some edits later.", "anchors": ["src/rw.cxx:46-180", "src/audit.cxx:20-400", "src/gear.cxx:20-600"]}
{"id": "C73", "title": "Checking, sizing and opening through the C interface", "statement": "The check of a serialised tuple always answers; the size told for a buffer suffices to open the tuple in it; every refusal is told as an error and never as an abnormal end; nothing is opened when an argument is missing.", "quantifier": "all bytes and lengths, all buffers, all requested extra items and payloads", "why_tests_cant": "The two calls are made apart, with state carried by the caller between them; exceptions in functions that may not throw end the process only for extreme requests.", "anchors": ["src/compat_rw.cxx:26-205", "src/compat_ro.cxx:25-134", "src/rw.cxx:640-760"]}
{"id": "C74", "title": "A tuple's own numbers agree with its contents", "statement": "The number of loose fields, the free room, the junk, the sizes with and without junk and the tests for emptiness, of a modifiable tuple and of its serialised form, agree with the fields the tuple has and with what compaction gives.", "quantifier": "all tuple states reached by any calls, compactions and growth", "why_tests_cant": "Wrong units cancel out while there is no junk, and an empty index is taken for an empty tuple only when there is a schema.", "anchors": ["fast_positive/tuples/details/rw.h:1085-1145", "fast_positive/tuples/details/ro.h: empty, size", "src/compat_ro.cxx:25-61", "src/compat_rw.cxx:41-99"]}
{"id": "C75", "title": "Trivial convertibility between types tells the truth", "statement": "A type is called trivially convertible to another exactly when every value of the first is a value of the second, and the run-time and constant-expression tables agree.", "quantifier": "all pairs of types and all their values", "why_tests_cant": "The tables are built from each other by inheritance of masks, so one wrong mask silently changes many pairs, and the wrong pairs only lose data at extreme values.", "anchors": ["fast_positive/tuples/details/meta.h:285-760", "src/ro.cxx: trivially_convertible_from_array"]}
{"id": "C76", "title": "Values of fixed size are copied whole and nothing else is touched", "statement": "Writing a value of a fixed-size type reads the bytes of the given object only, the value reads back equal, no byte outside the field changes and padding is zero.", "quantifier": "all fixed-size types, values, places and memory contents", "why_tests_cant": "Reading a few bytes behind an object on the stack succeeds in practice and leaves no trace in the result.", "anchors": ["fast_positive/tuples/details/meta.h:60-280", "fast_positive/tuples/types/ip_address.h"]}
{"id": "C77", "title": "Typed values survive editing, compaction and serialisation", "statement": "A value of any field type (text, binary, nested tuple, property, or a value of fixed size) that a setter stores with success in a non-repeated field is exactly the value the getter gives later, however many other calls follow - on other fields, on collections, failing calls on the same field - until a call on that field succeeds; it is also what the getter gives after the tuple has been compacted, and what a reader finds in the bytes of the serialised tuple. Bytes left in a reused piece of the payload never show up in a value. Setting a value that counts as empty in a field that does not distinguish empty from absent removes the field, and the getter gives the empty value of the type.", "quantifier": "all values of all types within the limits of the formats, all fields, all histories of calls before and after the setter, all sorting algorithms used by the compaction, all addresses of the serialised tuple", "why_tests_cant": "The value is transformed by the codec of its type, placed by the allocator, moved by reallocations and compaction and read back through another class; the combinations of types, lengths, hole patterns and histories are unbounded.", "anchors": ["fast_positive/tuples/details/meta.h:50-620", "fast_positive/tuples/details/rw.h:1319-1441", "fast_positive/tuples/details/getter.h:123-180", "src/rw.cxx"]}
{"id": "C78", "title": "The guarded allocator", "statement": "However blocks are taken from the guarded allocator, filled within their bounds and given back, in any order, no check ever fails, the base allocator gets back exactly the addresses and element counts it gave, the guards lie inside the base block right beside the user's elements, and the elements of live blocks are touched only by their owner. A single byte written up to eight bytes before or after the elements, a changed derived word, a word with a blank upper half, and a second release are noticed on release. No request beyond the base's limit reaches the base, and the guards are aligned.", "quantifier": "all element sizes, counts, base limits, addresses, clock values, histories of any length, all positions and values of the damaging byte", "why_tests_cant": "The check compares a 32-bit mix of a clock value: 2^32 chirps times all damages; histories and sizes are unbounded.", "anchors": ["fast_positive/tuples/1Hippeus/hipagut_allocator.h:36-200", "src/1Hippeus/hipagut.cxx:62-107", "fast_positive/tuples/1Hippeus/hipagut.h:68-183", "src/1Hippeus/allot_stdcxx.cxx:34-81"]}
{"id": "C79", "title": "Accessors kept while the tuple is edited", "statement": "A program that keeps accessors in variables, assigns and removes through them and edits the rest of the tuple by token between these calls behaves as the same program that names every field by token: same outcomes, same tuple, no undefined step, and each held accessor reads the value of the last successful call on its field. An entry that no successful call addresses keeps its field and value, so an accessor or iterator standing at it reads the same. An accessor never acts on another field than its own.", "quantifier": "all tuples reached by any history, programs of any length over any number of variables, fields, types and values", "why_tests_cant": "The accessor stores a pointer into an index that every other call may grow, reuse or leave holes in; interleavings of two or more users of one tuple are unbounded.", "anchors": ["fast_positive/tuples/details/getter.h:112-217", "fast_positive/tuples/details/getter.h:561-580", "fast_positive/tuples/details/rw.h:357-402", "fast_positive/tuples/details/rw.h:1319-1441", "fast_positive/tuples/details/rw.h:1505-1528"]}
{"id": "C80", "title": "Recognising reserved words", "statement": "in_word_set(str, len) answers with the equal string of its pool exactly when the len bytes at str are one of the 42 reserved words of ECMAScript, for every string of bytes, and reads nothing beyond the string, its terminator and its own tables. No other length makes a string accepted.", "quantifier": "all strings of bytes of any length and content, all given lengths, any memory after the string", "why_tests_cant": "The rejection side ranges over all strings; a perfect hash with one wrong table entry still passes tests over the keywords it does not touch.", "anchors": ["src/gperf_ECMAScript_keywords.h:48-61", "src/gperf_ECMAScript_keywords.h:63-192"]}
{"id": "C81", "title": "Setters, getters and insertions named after types", "statement": "For each of the names (string, bool, enum, i8 .. u64, datetime, uuid, int128, bin96 .. bin512, ip_address and the rest) the setter, the getter and the insertion go for the same type of field and refuse every other type without touching the tuple. What a setter has stored is what the getter of that name gives, after any further calls on other fields; a date in a field that keeps seconds loses only its fraction. An insertion adds exactly one element with that value. Every type of field can be written under some name. The wrappers of the public classes give what the accessors give.", "quantifier": "all names, all types of field, all arguments of the parameter's type, all tuples reached by any history of calls, compactions and growth, all later histories that leave the field alone", "why_tests_cant": "33 names by 31 types by three tables written by hand in three files, with values and histories unbounded; one wrong cell shows only for that pair.", "anchors": ["fast_positive/tuples/details/rw.h:413-463", "fast_positive/tuples/details/rw.h:531-543", "fast_positive/tuples/details/getter.h:279-348", "fast_positive/tuples/details/getter.h:416-429", "src/rw.cxx:205-255", "src/rw.cxx:326-342", "fast_positive/tuples.h:247-291"]}
{"id": "C82", "title": "Tuples made by a named scale", "statement": "At each of the five named scales a tuple can be made, new with any schema that fits or as a modifiable clone of any tuple or of its bytes, and then has at least the items and bytes of that scale in reserve and, for a clone, the fields of the source; a clone made without naming a scale has the reserve of its source.", "quantifier": "all scales, all schemas, all reachable tuples, all sizes of buffers the allocator may lend", "why_tests_cant": "The limits only meet for payloads of tens of kilobytes together with a schema or a large scale.", "anchors": ["src/managed.cxx:24-167", "src/managed.cxx:245-277", "src/rw.cxx:663-771", "fast_positive/tuples/details/rw.h:1150-1196", "fast_positive/tuples.h:157-186"]}
{"id": "C83", "title": "Walking over a collection while editing it", "statement": "A loop over the members of a collection ends and meets every member that is not removed before its turn exactly once, with its value, whatever calls its body makes: editing other fields, adding members to the same collection, assigning to or removing the current one. A loop that only acts on the current member leaves each member as the act leaves it and no other field changed; removing the members that satisfy a condition keeps exactly the others. erase(begin, end) removes and counts the members of the range.", "quantifier": "all reachable tuples, all collections, all bodies (as functions of what was read so far), all ranges, all tokens", "why_tests_cant": "Removing an entry can trim the index under the iterator, so that the search goes on from outside it; bodies and states are unbounded, and the loops that never end show only with particular spellings of the body.", "anchors": ["fast_positive/tuples/details/rw.h:876-1013", "fast_positive/tuples/details/rw.h:1074-1088", "src/rw.cxx:118-137", "fast_positive/tuples/details/getter.h:480-500", "fast_positive/tuples/details/scan.h:91-98"]}
{"id": "C84", "title": "Comparing tokens, and fields with tokens", "statement": "The order of tokens is a strict weak order whose equivalence is denoting the same field, preplaced fields first by place; the hash is equal exactly for tokens of the same field; within a schema order and == agree. Every field met by an iteration knows its token, which is the only token of the schema that the iterator equals; a search over the index with a token finds an entry exactly when the tuple has the field, and finds the one the getter reads.", "quantifier": "all tokens, all schemas reached by definitions, all tuples, all searches", "why_tests_cant": "Pairs of tokens are 2^64 and the agreement of search, presence and getter is over all reachable tuples; the disagreements (flags, holes, repeated fields, attributes asked for at lookup) show only in particular pairs.", "anchors": ["fast_positive/tuples/token.h:186-267", "fast_positive/tuples/details/ro.h:97-131", "fast_positive/tuples/details/ro.h:409-435", "src/ro.cxx:39-77", "fast_positive/tuples/details/getter.h:603-608"]}
{"id": "C85", "title": "Life of a shared buffer in memory", "statement": "A buffer header is made exactly for an address and a length that are both zero or both not; it then reports the payload it was given, passes its checks, and no byte outside the header and the guard behind a solid payload is written. Writing into the payload and adding or dropping references keeps it sound; any one byte changed in one of the three guards is noticed. The last release hands the buffer to the allocator of its tag, after which no check accepts it; a buffer borrowed through the standard allocator is large enough, lies inside its heap block and gives that very block back. Probing touches only bytes of the range and every page of it.", "quantifier": "all memories, addresses, tags, lengths, payload writes, numbers of references, guard values a setup can arrive at", "why_tests_cant": "The detection claim is over all bytes and all guard values; release depends on bits of the tag that tests of the standard allocator never vary, and the missed pages depend on the alignment of the payload.", "anchors": ["src/1Hippeus/buffer.cxx:41-233", "fast_positive/tuples/1Hippeus/buffer.h:313-565", "src/1Hippeus/allot_stdcxx.cxx:39-81", "src/1Hippeus/utils.cxx:173-194", "src/1Hippeus/utils.cxx:238-270"]}
{"id": "C86", "title": "Values read from a tuple can be stored in it again", "statement": "A getter of a text, binary, property or nested field gives a view into the payload. Passing such a view to a setter, an insertion into a collection or a preplaced field of the same tuple has the same outcome as passing a copy of the value: the target reads back that value and the field the view came from keeps its own, in plain and in managed tuples, also when the target is the field itself.", "quantifier": "all reachable tuples, fields of stretchy types, targets, views, values and histories", "why_tests_cant": "Whether source and destination overlap, and whether room is made between taking and using the view, depends on the sizes, holes and junk left by the whole history.", "anchors": ["fast_positive/tuples/details/rw.h:1364-1501", "fast_positive/tuples/details/rw.h:1015-1046", "fast_positive/tuples/details/field.h:56-300", "fast_positive/tuples/details/meta.h:481-576", "src/autogrowth.cxx:22-231"]}
{"id": "C87", "title": "Removing a preplaced field never harms the others", "statement": "Removing a preplaced field of variable length, or setting it to an empty value, either removes it or is refused for lack of an index entry; a refusal leaves the tuple exactly as it was. An auto-growing tuple then makes room and removes the field on the next attempt, and all other fields keep their values. Erasing by token or iterator removes the field that is there.", "quantifier": "all reachable tuples, preplaced fields, layouts of holes, sorting functions, allocators and buffer sizes", "why_tests_cant": "The refusal needs a full index, a payload with live neighbours on both sides, and later a compaction; the damage shows only in another field.", "anchors": ["src/gear.cxx:366-429", "src/gear.cxx:757-875", "src/autogrowth.cxx:22-87", "src/autogrowth.cxx:269-345", "fast_positive/tuples/details/rw.h:339-350"]}
{"id": "C88", "title": "String views keep their bytes, and nil stays nil", "statement": "A string view made of an address and a count, of two addresses or of a zero-terminated text holds exactly those bytes. Converting a view to a standard string or standard view and back gives an equal view; exchanging twice with a standard view restores both. Checked access gives the byte at each position below the size and refuses all others; walks in both directions see exactly the bytes. A view equals a standard string exactly when it is not nil and the bytes are the same.", "quantifier": "all addresses, counts, memories, texts, views, standard strings and conforming memcmp functions", "why_tests_cant": "Nil, empty and null-with-no-bytes print alike, so a lost nil shows only in later comparisons; counts above 2^63 cannot be allocated.", "anchors": ["fast_positive/tuples/string_view.h:54-206", "src/misc.cxx:43-47", "fast_positive/tuples/details/getter.h:50-62"]}
{"id": "C89", "title": "The scan routine chosen for a processor runs on it", "statement": "The table of processor features holds what CPUID tells, reads only leaves that exist, and every question about a feature is answered by the bit the manuals assign to it. The index scan chosen from it uses only instructions that the processor has and the operating system allows, no faster one would run, and lookups give the same answers whenever the choice is made.", "quantifier": "all CPUID functions, operating systems (XCR0), both orders of choice and construction, all indexes and tags", "why_tests_cant": "Tests run on the processors and systems at hand; a system without AVX state, a hypervisor that hides leaves and the order of static constructors are not varied.", "anchors": ["fast_positive/tuples/details/cpu_features.h:26-148", "src/cpu_features_ia32.cxx:70-137", "src/scan_ifunc.cxx:30-54", "fast_positive/erthink/erthink_ifunc.h:46-92"]}
{"id": "C90", "title": "A view taken of a modifiable tuple shows the tuple until it is changed, and comparison tells whether it still does", "statement": "Taking a read-only view (take_weak_asis, conversion to tuple_ro_weak) of a modifiable tuple changes none of its fields and shows exactly them. While the tuple is not changed the view is valid; a tuple compares equal to a view exactly when the view still shows it, and comparisons of handles are symmetric, consistent with their negations and safe for every handle.", "quantifier": "all reachable tuples, schemas, buffers and histories of calls and views between them; all pairs of handles", "why_tests_cant": "A stale view reads the tuple's own buffer, so a test sees plausible fields or none depending on the exact history; the header is overwritten only when an index entry is added, and comparison with a moved-from tuple crashes.", "anchors": ["fast_positive/tuples.h:386-448", "fast_positive/tuples.h:841-855", "fast_positive/tuples.h:1132-1149", "fast_positive/tuples.h:1432-1465", "fast_positive/tuples/details/rw.h:1198-1204", "src/rw.cxx:628-646"]}
{"id": "C91", "title": "Views and references handed out by getters keep showing their field while other fields are edited", "statement": "A view (text, binary, property, nested tuple) or a reference (binary values of 96 to 512 bits, addresses, networks) given by a getter keeps showing the value of its field as long as no later call names that field, whatever other calls do and whether they succeed or fail. After the field itself is set the view or reference shows the new value. A reference may be passed to a setter of the same tuple with the outcome of passing a copy of the value, in plain and in managed tuples.", "quantifier": "all reachable tuples, fields loose, in collections or preplaced, histories of calls of any length after the getter, all types and values", "why_tests_cant": "Whether bytes move depends on holes, junk and free room left by the whole history; a stale reference reads plausible old bytes until the place is reused.", "anchors": ["fast_positive/tuples/details/meta.h:207-275", "fast_positive/tuples/details/meta.h:472-588", "fast_positive/tuples/details/rw.h:1319-1482", "fast_positive/tuples/details/getter.h:112-217", "fast_positive/tuples.h:275-286", "fast_positive/tuples.h:641-652", "src/tablets.cxx:29-29", "src/autogrowth.cxx:22-231"]}
{"id": "C92", "title": "Typed reads and writes of fields happen at addresses that suit their types", "statement": "Wherever a field of a tuple is read, compared or written through a pointer to its value type, the address is a multiple of the alignment of that type: for loose and preplaced fields, in modifiable tuples, their serialised form and copies of it, after any history of calls, compaction and growth, and for references handed out by getters. Buffers and images at addresses for which this cannot hold are refused.", "quantifier": "all tuple states, all types, all addresses of the tuple, all schemas and numbers of reserved fields, all histories of calls", "why_tests_cant": "On the machines tests run on, misaligned loads of general registers work; which fields are misaligned depends on the parity of everything stored before and on the address of the buffer.", "anchors": ["fast_positive/tuples/details/meta.h:51-283", "fast_positive/tuples/details/field.h:338-348", "fast_positive/tuples/details/getter.h:127-190", "fast_positive/tuples/details/getter.h:416-428", "fast_positive/tuples/details/rw.h:216-263", "src/schema.cxx:196-217", "src/compat_rw.cxx:26-39", "src/autogrowth.cxx:41-87", "fast_positive/tuples/types/ip_address.h:24-46"]}
{"id": "C93", "title": "A structure laid over the preplaced part and the tokens of its members agree", "statement": "For every structure of mapped types the token made from a member is the token the schema uses for a field of that type at that offset. Members do not overlap. Whatever is set or erased by the token of one member is what the structure shows in it, and no other member changes. All members can be entered into a schema, the preplaced part then holds the structure, references among the members stand for the payloads they were given, and reading a member through the structure and by its token gives the same result, also when the value is absent.", "quantifier": "all structures of standard layout, packed or not, with any number and order of members of mapped types, all offsets, all values and sequences of sets and erasures", "why_tests_cant": "Tests make the token of one integer member and never run the code that reads through the structure; widths of enumerations, order of members and padding are chosen by users.", "anchors": ["fast_positive/tuples/token.h:302-330", "fast_positive/tuples/token.h:470-497", "fast_positive/tuples/details/type2genus.h:34-114", "fast_positive/tuples/details/meta.h:852-893", "fast_positive/tuples/details/field.h:355-398", "src/ro.cxx:293-322", "src/schema.cxx:122-194", "src/schema.cxx:270-287", "fast_positive/tuples/details/ro.h:572-578", "test/modern/internals.cxx:115-158"]}
{"id": "C94", "title": "The space estimated for a modifiable tuple and more is enough for such a copy", "statement": "Asked how much space the present contents and a number of further items and bytes take, a modifiable tuple answers with a size in which a copy can be made that has the same fields and the asked room, so that every sequence of additions within it goes through. The answer is the least such size. It is refused exactly when such a copy cannot be made, for every pair of numbers of type size_t.", "quantifier": "all tuples reached by any history of calls, compactions and growth, with and without preplaced fields, all numbers of further items and bytes, all buffer sizes, all later additions", "why_tests_cant": "The function is not called by the tests; sums that wrap, the second count of the preplaced part and the cut-off at 65534 units need particular numbers or tuples of a quarter megabyte.", "anchors": ["fast_positive/tuples.h:1116-1131", "fast_positive/tuples/details/rw.h:1093-1135", "fast_positive/tuples/details/rw.h:1150-1196", "src/rw.cxx:700-777"]}
{"id": "C95", "title": "Assignment to the accessor of a field", "statement": "tuple[token] = value stores the value: an integer of any C++ type is taken exactly by the numeric fields that have room for it, text by text fields, a truth value by the fields of truth values, and every other value by the fields of its type; what was taken is read back after any later calls that do not name the field; a chain of assignments gives the value to every field of the chain; and assigning a field to a field copies its value.", "quantifier": "All field descriptors, all sources and values (eight integer types, characters, texts, truth values, the nineteen other argument types), all states reached by any history of calls, all later histories that leave the field alone, chains of any length over distinct fields.", "why_tests_cant": "Thirty-five overloads against thirty-one field types, each over whole ranges of values and unbounded histories; the tests assign a few literals and never one accessor to another of the same type, never a chain in which a field refuses.", "anchors": ["fast_positive/tuples/details/rw.h:404-410", "fast_positive/tuples/details/rw.h:808-872", "fast_positive/tuples/string_view.h:70-81"]}
{"id": "C96", "title": "Times as numbers of seconds, and the order of times", "statement": "fractional_seconds() is the fraction of the time exactly and below one; seconds() is the double nearest to the time, keeps the order of times, tells different times apart, and its whole part is the second of the time; the six comparison operators are one total order, by second and then by fraction, and agree with seconds(); a time made of a time_t is that second.", "quantifier": "All 2^64 times and pairs of them, all doubles as candidates for the nearest, all values of time_t.", "why_tests_cant": "A double has 53 bits and the time 64: which times are exact, and which are rounded into the next second, depends on the highest bit of the seconds and the lowest of the fraction; the tests never call seconds().", "anchors": ["fast_positive/tuples/types/datetime.h:163-166", "fast_positive/tuples/types/datetime.h:191-192", "fast_positive/tuples/types/datetime.h:254-271"]}
{"id": "C97", "title": "The kinds of a token say what its field takes", "statement": "The predicates of a token on its kind fit together (a number is either an integer or floating, and either signed or unsigned; unsigned implies integer, floating implies signed; numbers have a fixed size), are the same for all tokens of a field, and agree with the operations: the generic setters and getters of integers, unsigned integers, floating values and numbers refuse a field for its type exactly when its kind says so, and booleans and enumerations are kinds of their own.", "quantifier": "All 2^32 tags, all pairs of tags of one field, all values handed to the setters, all outcomes of the typed getters.", "why_tests_cant": "Every type meets every setter with every value; the masks and the switches over types are written independently of each other, and the tests never call the predicates.", "anchors": ["fast_positive/tuples/token.h:147-175", "fast_positive/tuples/essentials.h:375-389", "fast_positive/tuples/details/rw.h:466-815", "fast_positive/tuples/details/getter.h:354-414"]}

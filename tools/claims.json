{
"C01": ["partial", "False of the code (refuted by a five-call history, by removal of a payload of 2048 units or more, and by growing a field to 2048 units or more while the index is full). Proved for every history, of any length and any sizes, that does not meet one of five explicitly listed allocator slips ('calm'), and for every history that only adds fields without any such proviso. Also proved without that list for tuples with at most 2047 units of data whose index has room to spare, when new payload is only added while there are no holes. For calls that add a field the listed condition is exact: wherever it fails and the call succeeds, a hole lies over a live field, and the next value of that hole's size is written over it. C01_big_removal_always_refuted: in every reachable tuple, removing any loose field with more than 2047 units of payload (by iterator, token, whole collection, or by storing an empty value) is undefined behaviour."],
"C02": ["partial", "Refuted by the same history; proved for all calm steps from all reached states. Also for ordinary use (see C01)."],
"C03": ["partial", "Refuted for emptying a preplaced variable-length field when the index is full; proved for all calm steps, and for failed inserts in every state."],
"C04": ["partial", "Refuted (two live payloads overlap; a field taken for a hole makes a write run thousands of units past the end of the buffer); proved for all states reached by calm histories, including that every write stays inside the payload being written. Also for ordinary use (see C01). For calls that add a field: no hole lies over a field afterwards if and only if the call is calm."],
"C05": ["partial", "Refuted after a failed slot release, netto_size refuted; proved for all states reached by calm histories. There are never more holes than fields."],
"C06": ["partial", "Insertion proved for all reached states; after compaction insertion is proved to succeed whenever the live fields and the new one fit the capacity (variable-length fields with payload). Growing the last field refuted. An index with more than twice as many places as fields never runs out (in-place fields, releases). The comparison at gear.cxx:591 refuted wherever it matters: the units given up by the last field stay a hole at the end of the data, and a field that would fit there is refused."],
"C07": ["partial", "Compaction of any tuple reached by calls (also interleaved with earlier compactions) keeps all fields, their order, all reads and frees exactly the junk, for every std::sort result; proved when every variable-length field has a payload. Refuted for null nested fields and for preplaced fields that were never set."],
"C08": ["partial", "The sort as written keeps order, index permutation and every field whose payload is behind the stray writes, and everything when the fixed-size preplaced part is long enough; the intended sort is proved to keep all fields. Refuted: sort zeroes the first payload units and writes past the end of the buffer."],
"C09": ["partial", "Readers of the serialised form and copies are proved to have the same fields for every tuple reached by calm histories (see C01), every reserve and buffer size, provided the reserve keeps the end of the payload within the size limit. Refuted beyond: large reserves put tail_ behind end_, and tuples with a large preplaced part are refused."],
"C10": ["partial", "Both the serialised and the modifiable form of every tuple reached by calm histories are proved accepted with exact hole counts. Refuted: histories that hit the listed allocator slips, tuples filling the largest buffer, and index plus variable-length preplaced fields above max_fields."],
"C11": ["partial", "For all byte images and any schema: an accepted image has its index, preplaced area, every payload and every hole inside it, and text/property/nested values inside. They are pairwise disjoint for every schema whose fields it places itself (and for all aligned references); refuted for imported tokens at odd offsets, where two payloads of an accepted image share bytes. Refuted for binary values, whose length formula reaches past the payload, and for zero-unit binary values at the end of the image."],
"C12": ["partial", "Refuted as stated: the length of a variable-length payload is read before its position is checked, and the verdict can depend on bytes after the image. Proved: the reads told are all there are, all other reads are inside, and when the references lead into the image all reads are inside and the verdict is a function of the image."],
"C13": ["partial", "False of the code for lengths not divisible by 4 (refuted for every such value); proved for lengths divisible by 4."],
"C14": ["proved", ""],
"C15": ["proved", "", ["C14_string_roundtrip"]],
"C16": ["partial", "Proved for the reference, unrolled, SSE2 and AVX2 scans for all memories, addresses, lengths (also negative) and tags, and for AVX when the thread does not run with denormals-are-zero; refuted for AVX under that mode, where every tag compares equal."],
"C17": ["partial", "Proved for the portable, SSE2 and AVX2 scans. Refuted for AVX, which reads two bytes past the end of the index in both its short case and its main loop; the partial theorem bounds AVX by the pages of the index extended by these two bytes."],
"C18": ["proved", ""],
"C19": ["partial", "All rows of the table are proved; the loose rows hold for calm histories (see C01)."],
"C20": ["partial", "Every overload of set_integer/set_unsigned/set_number and the insertions, every 32/64-bit value, every numeric type: refused without effect or read back exactly, other fields untouched; fitting numbers are accepted. Loose fields under the no-known-slip restriction (calm) of the allocator. Refuted for nullable preplaced fields given the reserved value (e.g. INT32_MIN, unsigned 0) and for the 128-bit setters (upper half dropped); set_unsigned(int64_t) proved to refuse every unsigned field."],
"C21": ["proved", "All bit patterns of float and double modelled exactly: accepted only if the truncated value fits the field, NaN and infinities refused; double into float never becomes infinite and is the nearest float, ties to even, sign, infinities and NaN kept. Storing into a tuple and reading back proved under the calm restriction."],
"C22": ["partial", "Proved for every history of definitions, imports and refusals: names and tokens are unique, lookups by name and token give what was defined, no byte belongs to two typed fields and no two regions overlap in part, fresh definitions are accepted while there is room. Refuted for opaque regions (no bytes are reserved for them, undefined without an initial value, refused behind a field) and for imported tokens in free places. The throwing lookups find exactly the defined names and tokens unless the invalid token itself was imported (refuted then); define_field and define_collection give the kind asked for."],
"C23": ["partial", "All four searches equal a linear search on every sorted table of any length (every reached schema has one). Refuted at the edges: a region at the end is not found, two tokens at one offset stop the walk by offsets, the search before the first token is undefined, offsets from 16384 wrap."],
"C24": ["partial", "Proved for every interleaving in which fewer than 2^31 handles are in use at a time; refuted beyond that (32-bit counter)."],
"C25": ["proved", "With and without guards; header, payload and guards lie inside the heap block, which is returned with its size."],
"C26": ["proved", "For every resolution up to 2^32 units per second, and for timespec, timeval and file time."],
"C27": ["proved", "For every memcmp that conforms to the C standard."],
"C28": ["proved", "For every memcmp that conforms to the C standard."],
"C29": ["partial", "For every state of an auto-growing tuple (calls, compactions and earlier growth in any order): when the free units including junk suffice for the value and a slot, the repeated call succeeds within two rounds, the written field has the new value and all others keep theirs; likewise when a larger buffer is taken. Excluded: the allocator slips of C01, replaced values over 2047 units, states where compaction is harmful. Refuted: the doubled index may leave tail_ behind end_; with preplaced fields the doubled data are refused although they fit; the realloc path of the C interface always sets end_ to 4294967286; making room in place passes 8191 fields and the serialised header then says none. A request no tuple can meet changes nothing (proved)."],
"C30": ["partial", "Copies that get the counters, copies of tuples without junk into a larger buffer, and fptu_fetch of a tuple without holes, are proved to behave as the original. Refuted for fptu_fetch of a tuple with holes, which always passes zero counters, and for manage_space_deficit, which copies the holes of a tuple but not their counters: a valid history of the copy ends in undefined behaviour."],
"C31": ["partial", "A tuple made with the estimated size takes every sequence of at most n additions with at most b stored bytes, for all n and b where index and data fit 65534 units; the size a schema computes is enough for any tuple of loose fields. Refuted: when b counts the bytes of the values without their length words; when index and data together exceed 65534 units; fptu_space with more than 8191 items; the size a schema computes for preplaced fields forgets the header."],
"C32": ["partial", "With a mask: proved for all worked tuples that exactly the matching fields go, the rest stays in order and the number returned is exact (no hole may become wider than 2047 units, never the case for tuples with at most 2047 units of data). With a type: proved that exactly the first match goes, exact for non-collections; refuted for collections and for the type null, which erases texts of the previous column."],
"C33": ["partial", "Iterators over the index visit every entry once in both directions and their arithmetic is consistent; every field of a tuple is visited exactly once, with as many other positions as the junk counter says; a tuple without holes (e.g. just compacted) shows its fields and nothing else. Iterators over all fields visit exactly the preplaced fields that hold a value, then the index, in both directions, for schemas made by definitions without opaque regions or foreign tokens and below 16384 bytes. Refuted: holes are shown as fields; postfix ++ and -- do not move and step the wrong way; with an opaque region ++ never ends; a first field not at offset 0; stepping back over 16384 bytes of preplaced fields."],
"C34": ["partial", "False of the code for every nonzero tag (stored in one place, read from another); proved for untagged pointers and for replacing the pointer."],
"C35": ["proved", ""],
"C36": ["proved", "Portable branches. bswap16 is modelled without the duplicated 'return' of its fallback line, which does not compile."],
"C37": ["partial", "Proved for all unsigned values and all signed values but the most negative one of each width, whose absolute value overflows (refuted)."],
"C38": ["proved", "Payload level: bytes of the nested image."],
"C39": ["partial", "Refuted by the slip of C01; proved for all calm histories. Also for ordinary use (see C01)."],
"C40": ["partial", "Proved whenever the tuple has room for at least one index entry; refuted for tuples created without index space."],
"C41": ["partial", "False of the code for every preplaced field: the answer is always inverted, and so is what erasing by token reports. Proved for loose fields."],
"C42": ["proved", ""],
"C43": ["partial", "Proved for all call sequences in which no request exceeds 2^64 - alignment bytes; refuted for larger requests (rounding wraps to zero), and the arena is refuted to be empty again when chunks were given back in another order than the reverse."],
"C44": ["proved", ""],
"C45": ["partial", "Update of an absent field: proved for every state. Update of a present field and upsert: proved for all calm writes from all worked tuples (one instance replaced, everything else untouched, or no space and nothing changed). Refuted for nested tuples (upsert always refused) and for inserting all-zero fixed binaries (dropped silently)."],
"C46": ["proved", "get_integer, get_unsigned and get_number_as_ieee754double give exactly the stored number, a type mismatch, or a range error only beyond 2^53-1; float to double exact; nullable preplaced fields holding the reserved value read as absent."],
"C47": ["partial", "Every variable-length field made by the schema itself is aligned and its reference leads back to the payload; the layout meets the conditions of the tuple model, so the history theorems apply (with their proviso). Refuted for imported tokens at odd offsets."],
"C48": ["proved", "For states reached by calm histories."],
"C49": ["proved", "Setting up always ends: the generator visits every 32-bit value and every signature has a good start. Any change within one byte (or one bit) of a guard is noticed. A larger change of the random word, or of the signature, is detected only up to collisions of the mixing function, of which two are shown."],
"C50": ["proved", ""],
"C51": ["proved", ""],
"C52": ["proved", ""],
"C53": ["proved", ""],
"C54": ["partial", "Proved for all histories in which no preplaced token is imported verbatim afterwards. Refuted for an imported token inside an earlier region."],
"C55": ["partial", "Proved for every mask, and for every type with columns up to 2047; refuted for larger columns with a type (they run over into the next type), for the type null and for the documented negative column of deleted fields."],
"C56": ["partial", "Proved for nested tuples; refuted for all fixed types (units taken for bytes), the in-place types (nothing), texts and binaries (block begins at the header)."],
"C57": ["partial", "Proved for every non-empty text and every memory behind the field; refuted for fields of other types, whose payload address is followed before the type is checked."],
"C58": ["partial", "The comparison itself is proved to be the lexicographic order (independent inductive definition) for all byte strings; fixed binaries proved; variable-length binaries proved for lengths divisible by 4 and refuted for all others (a stored value is not equal to itself)."],
"C59": ["partial", "Present fields proved for all types but text; absence is reported by the text getter only (proved), refuted for every other type in every state."],
"C60": ["proved", "For all 64-bit patterns and both modes; reading back is stated as: no double of another value is as near to the text."],
"C61": ["partial", "Refuted as stated: the accurate mode prints 39381387207177763e+98 where ...764e+98 is nearer, and 20e-324 where 2e-323 reads back; proved: at most 17 digits, or the exact integer."],
"C62": ["partial", "Proved for limits of the decimal form between -14 and 14 (the default is -4 and 10); refuted for -15 (writes before the buffer) and 15 (a stale byte in the text), which the assertions of the code admit."],
"C63": ["proved", "No-use-after-free for calls that take no nested tuple out of a modifiable one (see C64) and not through hollow handles, which the code does not check."],
"C64": ["partial", "Proved for programs that do not call get_nested_managed() of a modifiable tuple; refuted with it: the handle shares the writer's buffer, changes with it and dangles."],
"C65": ["partial", "Proved for every conversion, assignment and growth; refuted: a readable tuple moved to itself is lost, and the noexcept constructor of tuple_rw_managed ends the program; clones into malloc memory always throw."],
"C66": ["partial", "Proved for calls with care (no growth with holes, clones with a schema validated); refuted: the default validation of a clone with a schema is skipped, against its comment, and growth forgets the counters of junk."],
"C67": ["partial", "Answers of optimize() proved for states reached by calm histories; refuted: take_weak() and take_managed_clone() do the opposite of their argument."],
"C68": ["partial", "Numbers, filters, tags and distinctness of names proved; refuted: make_tag accepts a column above 2047 and returns the tag of another type; booleans, addresses and networks have no name. printf is taken as the C standard gives it."],
"C69": ["proved", "gmtime and printf are taken as the standards define them (proleptic Gregorian calendar, no leap seconds; decimal rounding to nearest, ties to even)."],
"C70": ["partial", "Proved for the guarded getters and for the functions that return codes; refuted: fptu_get_cstr leaves the integer untouched on success, std::bad_array_new_length is told as an invalid argument, FPTU_ENOMEM has no text."],
"C71": ["partial", "Proved: failures name a missing amount (no hole wider than 2047 units), removal of loose fields never fails, the share inside the buffer, the standard sizes, and what realloc carries over. Missing: growth with preplaced junk above 2047 units; the end of a realloc-grown tuple is wrong (C29)."],
"C72": ["partial", "Proved for accepted bytes that are put together properly (no value of zero units, some owner of the payload, holes apart from each other and from the end), which all images written by a calm history are; refuted without it: adjacent holes, units without owner and values of zero length laid over others are accepted and damage later edits."],
"C73": ["partial", "Proved: the check always answers, the two calls fit together, errors and refusals are told, new tuples. Refuted: fptu_get_buffer_size ends the process for too many items; the counters kept between the two calls may belong to other bytes."],
"C74": ["partial", "Proved for states of calm histories with compaction and growth: counts, room, payload and capacity, junk, sizes, emptiness. Refuted: netto_size takes units for bytes, fptu_is_empty_ro calls a tuple with only preplaced values empty."],
"C75": ["partial", "Proved: for numeric types other than unsigned bytes and signed bytes to unsigned types, convertible exactly when the value set is included; all other types; both tables agree. Refuted: signed bytes to every unsigned type are called convertible, unsigned bytes to nothing, 64-bit times to 32-bit ones."],
"C76": ["partial", "Proved for every fixed type but networks. Refuted for networks: three bytes behind the object are read; they never get into the tuple."],
"C77": ["partial", "Proved for text, properties, nested tuples, all fixed-size types and binaries whose length is a multiple of four, for calm histories (no call meets one of the allocator slips refuted elsewhere). Missing: binaries of other lengths (refuted: wrong length), minus zero and bare nested headers in fields that do not distinguish empty values (refuted: read back as plus zero and null)."],
"C78": ["partial", "No false alarm, balance, layout, detection of any one changed byte, of changed derived words, blanked words and second releases are proved for all histories. Refuted: two bytes written past the end can go unnoticed; the limit wraps for a base smaller than two gaps; guards are misaligned 64-bit objects for odd lengths and for element sizes like 12 (the library's own buffers are proved aligned)."],
"C79": ["partial", "Refinement to calls by token, last write and stable positions are proved for all programs in which a field with a held accessor is named only through it. The last sentence does not hold of the code: stale or doubled accessors act on other entries (C79_twins_refuted, C79_reused_entry_refuted, C79_compaction_refuted) and remove() follows a null pointer (C79_remove_absent_refuted)."],
"C80": ["partial", "Proved for NUL-terminated strings whose first two bytes are below 128. The code reads past its table of 128 entries for other bytes (C80_eight_bits_refuted) and compares up to the terminator, not up to len (C80_slice_refuted)."],
"C81": ["partial", "Proved: setters and getters agree for every name and type; the round trip of every argument over all histories (dates in t32 fields floored to the second), reading under synonyms, insertion of exactly one element, refusal of other types. Refuted: insert_datetime cannot fill a collection of t32 (no insertion can), and the types app_reserved_64 and app_reserved_128 have no setter, and the wrappers get_int128/get_uint128 of the public classes return a reference to a temporary. Excluded as in C77 and C20: minus zero, bare nested headers, binaries not of whole units, 128-bit integers wider than 64 bits in narrower fields."],
"C82": ["partial", "Proved: the exact condition under which a new tuple of a scale, a clone of a scale and a clone with the source's reserve are made, and that they then have the fields of the source and the promised room whenever items and payload together fit 65534 units; opening bytes equals cloning. Refuted: the largest scale cannot be had with any schema that has a preplaced field, although estimate_space_for_tuple() gives a size for it; without one it has an eighth less room than promised; clones of tuples with preplaced fields fail because the preplaced part is counted twice (with the largest scale for every payload over 32 KB); when the reserve of items does not fit besides the payload the clone is made with the end of its payload behind the end of its buffer, at every scale. Buffers are assumed to be lent with at least the size asked for and at most the limit; failures of allocation are left out."],
"C83": ["partial", "Proved for loops over copies of the elements with any calls before and after the act, also calls that remove the current element or fill its place (C83_any_calls; C83_walk_meets_every_element, C83_acts_exact, C83_remove_if), and for ranges from any member to any later one or the end (C83_erase_range, C83_erase_any_range), under the condition that the calls do not meet the slips of the allocator (C01, C04). Refuted, for all tuples: removing through a reference to the element ends the loop after the first removal (C83_remove_by_reference_refuted), a range whose end lies before its beginning never ends (C83_reversed_range_refuted), postfix ++ never moves (C83_postfix_refuted)."],
"C84": ["partial", "Proved: order, sameness, hash, iterators against tokens and searches by token for fields that do not repeat. Refuted: <= both ways without ==; a preplaced field against a token with overridden attributes; tokens of holes; searches in collections find the oldest member, the getter the newest."],
"C85": ["partial", "Proved for lengths below 2^32, local tags, any memory and any guard values; pages: the exact condition. Refuted: an empty buffer passes check() but not ensure(), longer payloads are cut, fields of the header are not guarded, shared tags cannot be borrowed from or released (the process ends), flags of the tag are lost, the last page can go unprobed."],
"C86": ["partial", "Proved for every other live field, loose, collection member or preplaced, in plain tuples and in managed ones with room: same outcome as with a copy. Refuted for the field itself, for nested tuples, and for managed tuples that grow or compact. C86_released_exactly, C86_given_up, C86_unfit: exactly when the growth releases the buffer behind the view, and that calls given up with copies are given up with views."],
"C87": ["partial", "Proved: the exact condition of a refusal, and that with the junk counter raised after the index entry is found the handler of an auto-growing tuple makes room (in place or in a larger buffer) and the removal then succeeds, all other fields keeping their values. Refuted for all states: a refused removal counts the payload as junk although it stays; a later compaction cuts as many units of live fields off and the next appended value overwrites them; the handler of an auto-growing tuple starts exactly that compaction, reports success and another field loses its value; erasing a present preplaced field by token or iterator does nothing. Missing: payloads of more than 2047 units and unset preplaced fields or empty loose ones beside the refused field (C07)."],
"C88": ["partial", "Refuted: nil converted to a standard string or view comes back as a non-nil view of null; counts of 2^63 and more and reversed ranges make nil views with an address; the order is not that of standard strings; memcmp may get a null; proved: everything else, with exact conditions."],
"C89": ["partial", "Refuted: the question about RDRAND looks at the hypervisor bit; AVX routines are chosen without asking whether the system saves AVX registers, so they trap where it does not; a choice made before the constructor of the table never uses vector instructions. Proved: all other questions, leaves read, and the choice where the system saves the registers."],
"C90": ["partial", "C90_take: taking shows exactly the fields, changes nothing and may be repeated. C90_take_silent: with views taken anywhere between any calls, the same calls succeed and the same tuple results. C90_survives_any_calls: after any calm run of calls (values of other lengths, fields added in the place of removed ones, an index that grew and shrank) the old view shows exactly the present fields by position, with its old size, as long as the unit of its header is intact and the index is not longer; equality says whether the index has shrunk. C90_valid_any_calls: if index and data end where they did, the view passes validation. (C90_survives_partial, C90_valid_partial: removals and same-length stores keep the header.) Refuted: after data shrank the tuple still equals a view that validation refuses (C90_size_refuted); a new index entry is written over the header, so the number stored becomes the view's size (C90_grown_refuted, every tuple without junk); adding and removing a field leaves an equal view without fields (C90_equal_refuted); comparing a moved-from tuple with a view goes through a null pointer (C90_moved_refuted). C90_handles: symmetry, consistency of == and !=. A value that has grown reaches past the end of a view that still equals the tuple (C90_longer_value_refuted). Missing: which calls other than removals and same-length stores keep the header is not characterised."],
"C91": ["partial", "Proved: no call that does not name a field moves its payload or changes a unit of it (C91_payload_stays), so views and references keep their value and are the ones that would be given again (C91_views_stay, C91_references_stay); a value of fixed size, or one of the same length, set in place shows through (C91_set_shows, C91_same_size_shows); a setter given a reference into the tuple does what it does with a copy (C91_store_reference, C91_references_fit), also in managed tuples while there is room or when the call is given up. Calls are calm (see C01). Refuted: a longer text moves away from its view, removal (also by setting zero) leaves old bytes that the next field replaces, compaction moves fields from under references, an absent field's reference never shows the field, and managed setters read a released buffer after growth or store torn bytes after compaction."],
"C92": ["partial", "Types of at most 32 bits and packed types always suit (loose, and preplaced by definition). Refuted for 64-bit types, addresses and 128-bit numbers: two wide fields around a narrow one are never both readable, in any tuple without holes and in any tuple of a schema; one more reserved field, moving the border, compaction and copying flip readability; buffers and images at odd addresses are accepted. Readable in tuples with only even-sized fields."],
"C93": ["partial", "Holds for every structure whose members are as wide as their fields, packed or not: tokens equal those of the schema, members are disjoint and aligned, any sequence of sets shows the same through structure and tokens, and entering all members succeeds. Refuted (for all cases, not only examples): references (2 bytes, field 4) and enumerations not of 2 bytes have tokens the schema would not make; references and 1-byte enumerations are entered with a write behind the image; setting a 1-byte enumeration overwrites its neighbour; a 4-byte enumeration shows negative values as positive; set_i8 leaves invalid bytes in bool members; erasing a member does nothing; offsets from 16382 on give loose or repeated tokens; of two neighbouring references one never resolves, as all of the documented example; padding may lie outside of the preplaced part (exact condition); value() throws where the getter gives empty; data() is the header."],
"C94": ["partial", "Proved when the sums do not wrap: when there is an answer and which (C94_exact_partial); the copy with the room, and all additions within it (C94_enough_partial); the least size as an equivalence (C94_least). Refuted: the preplaced bytes are counted twice, so the answer is not least with a schema (C94_excess_partial gives the bounds); sums wrap and the answer is less than the contents take, for every tuple with items (C94_wrap_refuted); the question is refused where copying with the same numbers is not (C94_refused_refuted); near 65534 units the promised room does not exist in any buffer (C94_largest_refuted). With holes the additions are proved to go through when they stay clear of the allocator's slips (C94_enough_with_holes); without holes that is not needed."],
"C95": ["partial", "Proved: which integers every type of field takes (exactly those it has room for), which text and truth values, that every type but three takes something; that an integer, a floating-point number (cut in integer fields, exact in fields of its own type), text or other value taken is read back after any history that leaves the field alone; that a chain is the sequence of its calls and gives an integer to every field in it. A float in a field of doubles is read back exactly; a double in a field of floats is refused exactly if it is beyond the floats, else the nearest float is read. Refuted: accessor to accessor changes nothing; arrays of characters are cut at a zero or read beyond their end; truth values are refused by other integer fields; three types can be assigned nothing; a chain that throws leaves part of it done; doubles within 2^-150 of zero remove a float field; on an auto-growing tuple an assignment throws where the setter makes room."],
"C96": ["partial", "Proved: the fraction is exact; seconds() is the nearest double, less than 0.24 us off, exact exactly for the times characterised (C96_seconds_exact), monotone, strictly so for times more than 2^11 ticks apart; its whole part is characterised (C96_whole_second); the operators are one total order and agree with seconds() up to ties; what a time_t becomes. Refuted: from 2^21 seconds on (1970-01-25) the whole part of seconds() is the next second for some times of every second, and different times have the same seconds(); a time_t before 1970 or after 2106 becomes another time (C96_time_t_refuted)."],
"C97": ["partial", "Proved for all tags, values and attributes: the kinds fit together, belong to the field, and are what the generic setters and getters take, decimals excepted. Refuted for decimals (numbers by kind, taken by no generic setter or getter) and for booleans and enumerations (the same types as signed integers of one and two bytes)."]
}

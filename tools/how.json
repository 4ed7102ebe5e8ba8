{
 "C01": "Gear + Tuple. Any list of calls is refined to a map from field to last written value by induction over the calls; each call is an effect on one field that preserves the cover invariant of the allocator. For ordinary use a pigeonhole argument (each hole is followed by a payload of its own) shows that the index is never full, which rules out the remaining slips.",
 "C02": "Gear + Tuple. Frame part of the effect of each call, from the cover invariant.",
 "C03": "Gear + Tuple. Every throwing path returns the state it was given.",
 "C04": "Gear. Cover invariant: every unit is owned by exactly one payload or hole; by induction over all calls.",
 "C05": "Gear. Counter part of the same invariant.",
 "C06": "Gear + GearOpt. Allocation succeeds when some hole or the tail is large enough; after compaction the tail holds all free units.",
 "C07": "GearOpt. The index squeeze keeps the order; the payload moves are per-chunk copies towards lower addresses, by induction over the chunk list sorted by address; for every result std::sort may return.",
 "C08": "GearOpt. Sort as written (vector pre-sized and then appended to) against the intended one.",
 "C09": "Image. Bytes of the serialised form as a function of the state; what a reader sees in them; the copy constructor back.",
 "C10": "Image + Audit. The interval map accepts a tiling in every insertion order.",
 "C11": "Audit, and Schema for what the validator sees. Soundness of the interval map for arbitrary bytes, by invariants of its insertion; for schemas with references anywhere, inside the image always, disjoint for the fields that the schema places itself, and refuted for imported ones.",
 "C12": "Audit. Every function returns the list of memory ranges it reads.",
 "C13": "Codec. Bytes of the stored form for every value.",
 "C14": "Codec. Bytes of the stored form for every value, all lengths up to the limit.",
 "C15": "Codec. Decision of estimate_space for all lengths.",
 "C16": "Scan. Each variant equals `find` on a list; vector lanes are 8- or 4-wide compares with movemask and count of trailing zeros.",
 "C17": "Scan. Byte ranges read by each path against the pages of the index.",
 "C18": "Tag. Pack and unpack by an arithmetic normal form.",
 "C19": "Tuple + TupleMore. One theorem per row of the decision table, for all values.",
 "C20": "Numeric + Tuple. Overload by overload, for all integers; end to end through a tuple.",
 "C21": "Numeric. Bits of binary32 and binary64, rounding to nearest even; the conversion is undefined outside the target range and the setters are shown not to reach it.",
 "C22": "Schema, SchemaMore. Induction over lists of definitions; the throwing lookups (get_token, get_name) and the shorthands define_field and define_collection by the invariant of the lookups, tokens that compare equal to the invalid one being made by no definition.",
 "C23": "Schema. Binary searches against linear ones on sorted lists of any length.",
 "C24": "Hippeus. Interleaving semantics with any number of threads and handles; invariant by induction over steps; sequential consistency.",
 "C25": "Hippeus. Arithmetic of sizes for all requests; malloc is an input.",
 "C26": "Values. Fixed point arithmetic for all resolutions.",
 "C27": "Values. Order laws for every memcmp that conforms to the standard.",
 "C28": "Values. The same for string views, with the hash as a function of the contents.",
 "C29": "Growth + GearOpt. Arithmetic of manage_space_deficit; then the compaction and insertion theorems.",
 "C30": "Image + Growth. Bookkeeping of copies with given, missing and wrong counters.",
 "C31": "Growth. Size arithmetic joined with the insertion theorem by induction over the additions.",
 "C32": "Legacy. The erasing scan as a recursion over positions with the effect of each erasure; counts as sums over positions.",
 "C33": "Iterators. Walks as chains of positions, in both directions.",
 "C34": "Hippeus. Bit arithmetic.",
 "C35": "Hippeus. Byte-level memory; masks on little-endian words.",
 "C36": "Erthink. Exact integer arithmetic for all operands.",
 "C37": "Erthink. Digits for all 64-bit values by induction over the rounds.",
 "C38": "Codec. Verbatim copy of units.",
 "C39": "Tuple. Multiset refinement of all histories.",
 "C40": "Tuple + TupleMore. reset as a function.",
 "C41": "TupleMore. Presence against reading.",
 "C42": "Hippeus. Folds over words against a statement about bytes.",
 "C43": "Arena. Invariant over histories of requests and releases.",
 "C44": "Hippeus. Pack and unpack.",
 "C45": "Legacy on top of Tuple: the effect of one set call at the position found by the lookup.",
 "C46": "Numeric. All stored values of all numeric types.",
 "C47": "Schema. Placement arithmetic; references are resolved in units of four bytes.",
 "C48": "TupleMore. Counts against the invariant.",
 "C49": "Hippeus. Guard words as functions of a random word and a signature. Changes within one byte: MixProofs.v, see C78.",
 "C50": "Hippeus. Rounding of sizes, all sizes.",
 "C51": "Values. Loops of strnlen and memrchr against their specification.",
 "C52": "Values. Digits of every byte; the dump read back.",
 "C53": "Values. Bits of the fixed point fraction.",
 "C54": "Schema. The image as a byte string extended by definitions, by induction.",
 "C55": "Legacy. Scans as sums and searches over positions; the condition in plain arithmetic.",
 "C56": "Legacy + Codec. The block as a range of the stored bytes, type by type.",
 "C57": "Legacy + Codec. Stored form followed by arbitrary memory, read as a C string.",
 "C58": "Legacy + Codec. memcmp as a recursion against an inductive lexicographic order.",
 "C59": "Legacy. Getters as reads through a token without the flag for discernible nulls.",
 "C60": "D2a. Error bounds of the scaled product and of every generated digit, table entries and exponents checked one by one, then: no other double is as near to the text as the printed one.",
 "C61": "D2a. Two doubles computed through the model; the bound on the digits from the same invariant as C60.",
 "C62": "D2a. Each of the four forms read back by an independent reader.",
 "C63": "Managed. One invariant over all calls: counters equal the number of variables, checked call by call; undefined behaviour is an outcome of its own.",
 "C64": "Managed. The invariant extended by exclusiveness of writers; a frame lemma per call.",
 "C65": "Managed. What a handle shows, before and after each kind of call.",
 "C66": "Managed. A predicate on buffers kept by every call that is careful; two counterexamples run through the model.",
 "C67": "GearOpt. From the invariants of C07: junk units belong to junk index slots, so an answer of false means an unchanged state.",
 "C68": "Text. Closed form of a tag by linear arithmetic; finite tables of types checked whole; names apart because decimal numbers read back.",
 "C69": "Text. The counting calendar is related to a closed formula for days; fixed-width fields are read back by position and compared as words.",
 "C70": "Text. Case analysis over calls and exception classes.",
 "C71": "Growth + Gear. Case analysis of the allocator for failures; nonlinear arithmetic of the proportional share; sizes through a table of five standards.",
 "C72": "Audit + Image + Gear. From the accepting run of the validator the accounting invariant of the writer is rebuilt: the chunks it collected are the cover; then the history theorem of C01 and the image theorems of C09 apply.",
 "C73": "Facade. Induction over the check for termination without exceptions; the estimate is compared with what opening takes; concrete images for the counters kept between two calls.",
 "C74": "Facade + Gear. The invariant's sum of holes against the length of the index; compaction theorem of C07; concrete states for the wrong sizes.",
 "C75": "Traits. Values as dyadic numbers; inclusion of value sets decided by limits for whole and binary formats, with explicit witnesses against; the finite table checked by computation.",
 "C76": "Traits. Memory as a function; pointwise equality of the copy, sizes checked over the finite list of types.",
 "C77": "Each typed value is encoded to the units of a payload and read back (TypedProofs.v, by cases on the type and list induction in steps of four bytes); the last successful write then determines the units by the history theorem (induction on calls), compaction keeps them by the compaction theorem, and the serialised bytes hold them by the image theorem. Minus zero, bare nested headers and odd binaries are refuted by evaluation.",
 "C78": "Invariant over histories by induction (all live guards intact, base blocks disjoint, base ledger equal to what the live blocks need). One changed byte: for the upper three bytes a 2-adic argument on the halves of the product (both differences must end in the same number of zero bits), for the lowest byte the values that can collide lie near the 208 multiples of 2^24 of the high half, where a congruence leaves two candidates that are evaluated. Two changed bytes, wrapped limits and misaligned guards are refuted by evaluation.",
 "C79": "Refinement: while each field with a held accessor is named only through it, the stored position equals what a fresh lookup finds, by induction over the program; the last write then follows from C01. Positions: frame lemma of each call. Without that discipline (two accessors of one absent field, an entry reused by another field of the same type, removal through a null pointer, compaction) the sentence is refuted by evaluation.",
 "C80": "Soundness by comparing strings up to the terminator and one evaluation over the 56 slots; completeness by evaluation of the 42 words with an arbitrary memory behind them. Bytes above 127 in the first two places and words inside a longer text are refuted by evaluation.",
 "C81": "The three tables are compared name by name and type by type; arguments become bytes and back by arithmetic modulo powers of two; histories come from C77. That no insertion accepts a collection of dates kept as seconds, and that two types have no setter, follows from the tables.",
 "C82": "The sizes are computed symbolically from the three tables and the two estimates, giving an exact condition for success; the fields and the invariant come from C09's theorem on moved tuples.",
 "C83": "Induction on the position of the iterator: what lies behind it is either still in the index or a hole, so the search finds exactly the members left; the effect of each act comes from the step lemmas of C01/C02. For arbitrary calls in the body: every call keeps \"in the index or a hole\" for all positions, also for those it cuts off (call_keeps), so the current element may be removed at any moment. The refutations are universal: a reference to the iterator is nulled by the removal, postfix ++ never moves, a reversed range never meets its end.",
 "C84": "The flags are split off the tag arithmetically, which turns sameness, order and hash into statements on numbers; the hash is a product below 2^64 followed by an xor-shift, both injective. The iterator theorems use the sorted tables of C23 and the walk of C33; the search is the collection of C02 read backwards. Refuted: antisymmetry of <= against ==, equality with a token whose attributes were overridden, tokens of holes, the member found in a collection.",
 "C85": "The header is modelled byte by byte in the memory of C78; every operation is a write to a known range, so soundness is a frame argument over disjoint ranges, and damage reduces to the one-byte theorem of C49. Tags are split arithmetically (C44), sizes come from C25. Pages are counted with quotients. Refuted: empty buffers pass check() and fail ensure(); lengths of 2^32 and more are cut; the fields between the guards are not protected; buffers of shared allocators end the process when released; the read-only flag of a tag is lost; the last page can go unprobed. What the flags of the tag say is read off its bits (C85_kinds); lengths of a payload kept apart are refused from 2^63 on (C85_apart).",
 "C86": "The codecs are replayed on the arena with the source bytes read at the moment of the copy, that is after the chunk has been found and after the stores before the memcpy. For another live field the chunk is disjoint from the view (the accounting invariant), so the late bytes are the bytes of the value and everything proved for copies applies; copies to other fields are read back through C77. Refuted: a field stored in itself loses the bytes of its last unit, a nested tuple stored in itself becomes a field of no units and breaks the invariant, a managed tuple that grows reads the released buffer, and one that compacts in place stores bytes of other fields with success.",
 "C87": "The condition of the refusal is derived from the searches for adjacent holes and index entries. The state it leaves differs in one counter; compaction commutes with that counter, so its result is the compacted tuple of C07 with an end that is too low, and the coverage invariant names a field that owns the unit at the new end. The handler of the auto-growing tuple is computed on that state. The repaired order is proved with the room lemmas of C29.",
 "C88": "The casts between signed and unsigned counts are computed for the three ranges; conversions, swaps and accesses then follow by cases on nil. Walks are proved by induction on the number of bytes, texts by induction on the search for the zero byte. Comparisons are reduced to C28.",
 "C89": "The fields of the table are computed for every combination of highest leaves; a test with a shifted one is shown to be the test of that bit, so each question reduces to the bit in the manual. The choice is then a cascade of those bits. Equality of answers is C16.",
 "C90": "The header is an entry of the index just past its end, so taking a view is a change above the part that the tuple's invariant speaks of. An invariant of the later calls says that entries given up are holes and the header is untouched; removals keep it because all their writes are below the old end. Reading through the old header then meets the present entries and holes. A simulation through every function of the gear shows that nothing above the end of the index is ever read, hence that views taken between calls have no influence (StaleTwin.v). For calls of any kind: entries cut off the index are holes (WanderProofs), so the view shows the tuple while the unit of its header is intact.",
 "C91": "The effect of one call on the fields now also says that the payloads of all other live fields keep their address; induction over the calls then keeps address, length and all units of a field that no call names. References are compared with copies by showing that finding room changes no unit of data, so the bytes read late are the bytes read early.",
 "C92": "Addresses in bytes are added to the model in units: the area begins 40 bytes behind the tuple. Types that need at most four bytes are shown to suit always. For the wide ones the place of a new field is computed for any tuple without holes, so that two wide fields around a field of one unit differ by an odd number of units; offsets given by definitions are computed in the same way, whatever the schema held before. A parity invariant carried through histories gives the positive part.",
 "C93": "A structure is a list of member types; offsets, packed or natural, are computed by recursion, and disjointness is shown by induction for every list. Tokens are computed with the widths of the C++ types and compared with those the schema makes. Sequences of calls on members are run on the bytes of the preplaced part. Entering all members into an empty schema is shown to succeed by induction with the invariant of schemas, and to write outside of the image as soon as a member is narrower than its field.",
 "C94": "The answer is computed with the sums of size_t, and characterised exactly where they do not wrap. Copies are those of the model of images, so the fields and the room follow from the relation between a tuple and its copy, and the later additions from the induction over histories. The least size is proved to be an equivalence. Wrapped sums, refusals and the cut-off are refuted for every tuple that meets the bounds, not for one. Tuples with holes: an addition takes at most one entry and its own units of the room whichever hole the search finds, and is refused only without them, so calm additions within the room all succeed (C94_enough_with_holes).",
 "C95": "One function gives the call that an assignment makes, from the overload taken; acceptance is decided by arithmetic on the range checks of the numeric setters; reading back comes from the theorem on histories together with what the plans of numeric calls store (C20) and the round trips of named setters (C81); a chain is shown to be a run of calls from the right. Refuted: accessor to accessor is the defaulted operator and changes nothing; arrays of characters are cut at the first zero; truth values are refused by other integer fields; no operator takes binary data of variable length; a chain that throws leaves its right part done; doubles within 2^-150 of zero remove a float field. Rounding between the two types (RoundProofs.v) is shown to give the nearest number by exact arithmetic on scaled integers.",
 "C96": "The addition of the two parts is shown to be one rounding of the fixed-point word to 53 bits, so that nearness follows from the theorem on rounding (C21), and the order from the monotonicity of rounding across powers of two. Exactness and the whole part are characterised for every time. Refuted: from 1970-01-25 on every second has times whose seconds() falls into the next second, and different times with the same seconds(); a time_t outside 32 bits is taken modulo 2^32.",
 "C97": "The type of a tag is a number up to 31 whatever the tag, so the masks are compared with the types named by the switches of Numeric.v case by case, and the theorems lift this to all tags, values and attributes. Refuted: decimals are numbers, floating and signed by their kind and no generic setter or getter takes them; a boolean is every integer of one byte, an enumeration every signed integer of two."
}

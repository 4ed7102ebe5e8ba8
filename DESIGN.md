# Formal model of libfptu — design

## Method
The C++ sources in `/repo` are read as text and re-written, function by function, as
small total computable Gallina functions (`rocq/theories/*.v`).  Each definition
cites the file and the lines it models, and says where it simplifies.  Release (`NDEBUG`)
semantics is modelled: an `assert` is not a check.  Where an assert failure,
an out-of-range access or any other undefined behaviour is possible the model has a
distinct outcome (`Bad`, `None`, `Undefined`), so that no theorem can be true because the model
returned a harmless default.  Wrap-around of 16-, 32- and 64-bit numbers is explicit.

The library is work in progress at the pinned commit and several user-level
properties are *false* of the code.  For those the model is kept as it is and the
theorem is a `*_refuted` statement with a concrete reachable witness (or for all inputs of a class);
next to it stands the positive theorem for the part of the domain where the
code is right, with its hypotheses spelled out, and with the suffix `_partial` when part of the property is missing.
Where a defect is a one-token slip (e.g. a wrong variable), the model
function takes a `quirks` record; `asis` is the code as it stands and is what
all property theorems speak about; `repaired` is only used as a proof device and for
extra theorems that are explicitly about the repaired variant.

### Words used in the statements
- `reached multi s`: `s` arises from a freshly constructed tuple (any sizes, any preplaced fields) by a list
  of valid, *calm* calls, of any length; `multi` tells which descriptors the caller uses as collections.
- `worked multi s`: the same with compactions in between.
- *calm*: the call does not meet one of the four known slips of the allocator: cutting a new field out of
  a larger hole (gear.cxx:300), the exchange of payloads at the end of the data (gear.cxx:591), a hole
  wider than 2047 units (a hole keeps its size in 11 bits; the junk as a whole is not limited), a search for such a hole, and freeing a preplaced payload without a free index slot.  Each slip has its own refutation; `calm` is decidable and evaluated in the examples.
- `field s r`: descriptor and value of the loose entry or preplaced slot `r`; `view s d`: the values of all fields
  with descriptor `d` in the order of iteration; `fields_in_order s`: all loose fields.
- `TInv s`: the invariant of a tuple (cover count, counters, no adjacent holes, no hole at the tail).

## Layout of the development
| files | model |
|---|---|
| `Base.v` | wrap-around arithmetic, finite checks, tactics |
| `Tag.v`, `TagProofs.v` | `essentials.h`, `token.h`: tags and tokens |
| `Codec.v`, `CodecProofs.v` | `details/field.h`, `meta.h`: text, binary, property and nested payloads |
| `Gear.v`, `GearBase.v` … `GearAsis.v` | `gear.cxx`: the free-space manager |
| `GearOpt.v`, `GearOptProofs.v`, `GearSortProofs.v` | `gear.cxx`: compaction, sorting, optimize |
| `Tuple.v`, `TupleMore.v`, `TupleProofs.v` … `TupleFacts.v`, `TupleQuiet.v`, `TupleExact.v` | `rw.h`, `rw.cxx`, `getter.h`: set, insert, remove, get, reset, sizes |
| `Image.v`, `Audit.v` | `take_asis`, copying constructors, `audit.cxx` |
| `Scan.v` | `scan_*.cxx` |
| `Numeric.v` | range checks and conversions of `rw.h`, `rw.cxx`, `getter.h` |
| `Schema.v` | `schema.cxx`, `schema.h` |
| `Growth.v`, `GrowthProofs.v`, `PolicyProofs.v` | `autogrowth.cxx`, sizes of new tuples |
| `Iterators.v` | iterators of `ro.h`, `rw.h` |
| `Legacy.v` | `compat_*.cxx`, `legacy.h`: the C interface |
| `Hippeus.v` | `1Hippeus/*`: reference counting, buffer tags, guards, sizes, memory helpers |
| `Values.v` | `datetime.h`, `string_view.h`, comparison, string helpers |
| `Erthink.v`, `Arena.v` | arithmetic, formatting and the on-stack arena of erthink |
| `D2a.v`, `D2aProofs.v`, `D2aRound.v` | `erthink_d2a.h`: printing doubles |
| `Managed.v`, `ManagedProofs.v` | `managed.cxx`, `tuples.h`, `rw.cxx`: handles of tuples over counted buffers |
| `Text.v`, `TextProofs.v` | `legacy.h`, `legacy_compat.h`, `compat_common.cxx`, `misc.cxx`, `debug.cxx`: type constants, names, error codes, text of a date |
| `AcceptProofs.v` | from accepted bytes (`audit.cxx`) to the invariant of the writer (`rw.cxx`, `gear.cxx`) |
| `Facade.v` | `compat_ro.cxx`, `compat_rw.cxx`, `rw.h`: checking, sizing and opening through the C interface; counts and sizes |
| `Traits.v` | `meta.h`: table of trivially convertible types, writing and reading of values of fixed size |
| `Typed.v` | `meta.h`: reading, writing, emptiness and sizes of values of every type, and the 32-bit units they are kept in |
| `Guarded.v` | `hipagut_allocator.h`: gaps, limits, guards in memory, taking and releasing; histories over a base allocator |
| `Held.v` | `accessor_rw` as a token and a pointer to an entry; programs over variables that hold accessors |
| `Keywords.v` | `gperf_ECMAScript_keywords.h`: the hash, the pool and the comparison |
| `Named.v` | `rw.h`, `getter.h`, `rw.cxx`: the setters, getters and insertions named after types |
| `Scales.v` | `managed.cxx`, `tuples.h`: constructors and clones by named scales |
| `Walk.v` | `rw.h`, `rw.cxx`, `getter.h`, `scan.h`: iterators of collections, loops over them, erasing a range |
| `Tokens.v` | `token.h`, `ro.h`, `ro.cxx`, `getter.h`: comparing, ordering and hashing tokens; iterators and tokens |
| `Buffers.v` | `buffer.h`, `buffer.cxx`, `allot_stdcxx.cxx`, `utils.cxx`: headers of buffers in memory, checks, references, release, borrowing, probing of pages |
| `Alias.v` | `rw.h`, `meta.h`, `autogrowth.cxx`: setters given views into the tuple itself |
| `Removal.v` | `autogrowth.cxx`: removals from auto-growing tuples |
| `Views.v` | `string_view.h`, `misc.cxx`, `getter.h`: string views, their conversions, access and iteration |
| `Cpu.v` | `cpu_features.h`, `cpu_features_ia32.cxx`, `scan_ifunc.cxx`: processor features and the choice of the scan routine |
| `Stale.v` | `tuples.h`, `rw.h`, `rw.cxx`: views taken of a modifiable tuple, later changes of it, comparison of handles |
| `References.v` | `meta.h`, `rw.h`, `autogrowth.cxx`, `tablets.cxx`: getters that give references into the tuple, setters that take them |
| `Aligned.v` | `meta.h`, `getter.h`, `rw.h`, `types/*.h`: alignment of value types and the addresses of typed reads |
| `Native.v` | `token.h`, `type2genus.h`, `meta.h`: structures over the preplaced part and tokens of their members |
| `Wider.v` | `tuples.h`: the estimate of space from a modifiable tuple |
| `Assign.v` | `rw.h`, `string_view.h`: the assignment operators of accessors |
| `Seconds.v` | `datetime.h`: times as doubles, the operators of comparison, times of time_t |
| `SchemaMore.v` | `schema.cxx`: the throwing lookups by name and token, `define_field`, `define_collection` |
| `Kinds.v` | `token.h`, `essentials.h`: the predicates of a token on the kind of its values |
| `*Proofs.v` | lemmas about the model of the same name |
| `Properties*.v` | the property theorems with examples that meet their hypotheses, and `Print Assumptions` |

Key modelling decision for the allocator (`Gear.v`).  A modifiable tuple is a record with
the index (counted from the pivot outwards, so that the address of an entry never
changes while the head moves), the payload memory (`Z -> Z`, one 32-bit unit per
address), `pivot`, `tail`, `end` and the two 16-bit junk counters.  References are kept
relative and 16-bit exactly as in the code (payload = own address + offset).
The invariant is a *cover count*: every unit address between the start of the payload and
the tail is owned by exactly one live payload or hole, every other address by none.
Splitting, merging, trimming and moving are then pointwise arithmetic.

`tools/` holds the scripts that keep the generated files current: `claims.json` and `claim.py` (status per property),
`manifest.py` (writes `MANIFEST.json`), `how.json` with `design.py` (writes this file), and the mutation tools `mutate.py` (given edits),
`automut.py` (systematic small edits of every definition) and `log.py` (writes `seeded/LOG.jsonl`).

## Per property
For each property: what is modelled and how it is proved, then what is left out or refuted, and where the theorems are.

- **C01 Read-your-writes over any editing history** (partial). Gear + Tuple. Any list of calls is refined to a map from field to last written value by induction over the calls; each call is an effect on one field that preserves the cover invariant of the allocator. For ordinary use a pigeonhole argument (each hole is followed by a payload of its own) shows that the index is never full, which rules out the remaining slips. *Result:* False of the code (refuted by a five-call history, by removal of a payload of 2048 units or more, and by growing a field to 2048 units or more while the index is full). Proved for every history, of any length and any sizes, that does not meet one of five explicitly listed allocator slips ('calm'), and for every history that only adds fields without any such proviso. Also proved without that list for tuples with at most 2047 units of data whose index has room to spare, when new payload is only added while there are no holes. For calls that add a field the listed condition is exact: wherever it fails and the call succeeds, a hole lies over a live field, and the next value of that hole's size is written over it. C01_big_removal_always_refuted: in every reachable tuple, removing any loose field with more than 2047 units of payload (by iterator, token, whole collection, or by storing an empty value) is undefined behaviour. Theorems in `PropertiesExact.v`, `PropertiesQuiet.v`, `PropertiesTuple.v`.
- **C02 A write touches only its own field** (partial). Gear + Tuple. Frame part of the effect of each call, from the cover invariant. *Result:* Refuted by the same history; proved for all calm steps from all reached states. Also for ordinary use (see C01). Theorems in `PropertiesQuiet.v`, `PropertiesTuple.v`.
- **C03 A failed write is a no-op** (partial). Gear + Tuple. Every throwing path returns the state it was given. *Result:* Refuted for emptying a preplaced variable-length field when the index is full; proved for all calm steps, and for failed inserts in every state. Theorems in `PropertiesTuple.v`.
- **C04 Every payload lies inside the buffer and overlaps no other** (partial). Gear. Cover invariant: every unit is owned by exactly one payload or hole; by induction over all calls. *Result:* Refuted (two live payloads overlap; a field taken for a hole makes a write run thousands of units past the end of the buffer); proved for all states reached by calm histories, including that every write stays inside the payload being written. Also for ordinary use (see C01). For calls that add a field: no hole lies over a field afterwards if and only if the call is calm. Theorems in `PropertiesExact.v`, `PropertiesQuiet.v`, `PropertiesTuple.v`.
- **C05 Junk counters are exact** (partial). Gear. Counter part of the same invariant. *Result:* Refuted after a failed slot release, netto_size refuted; proved for all states reached by calm histories. There are never more holes than fields. Theorems in `PropertiesQuiet.v`, `PropertiesTuple.v`.
- **C06 No spurious out-of-space** (partial). Gear + GearOpt. Allocation succeeds when some hole or the tail is large enough; after compaction the tail holds all free units. *Result:* Insertion proved for all reached states; after compaction insertion is proved to succeed whenever the live fields and the new one fit the capacity (variable-length fields with payload). Growing the last field refuted. An index with more than twice as many places as fields never runs out (in-place fields, releases). The comparison at gear.cxx:591 refuted wherever it matters: the units given up by the last field stay a hole at the end of the data, and a field that would fit there is refused. Theorems in `PropertiesExact.v`, `PropertiesOpt.v`, `PropertiesQuiet.v`, `PropertiesTuple.v`.
- **C07 Compaction keeps every field and reclaims all junk** (partial). GearOpt. The index squeeze keeps the order; the payload moves are per-chunk copies towards lower addresses, by induction over the chunk list sorted by address; for every result std::sort may return. *Result:* Compaction of any tuple reached by calls (also interleaved with earlier compactions) keeps all fields, their order, all reads and frees exactly the junk, for every std::sort result; proved when every variable-length field has a payload. Refuted for null nested fields and for preplaced fields that were never set. Theorems in `PropertiesOpt.v`.
- **C08 Sorting the index keeps every field** (partial). GearOpt. Sort as written (vector pre-sized and then appended to) against the intended one. *Result:* The sort as written keeps order, index permutation and every field whose payload is behind the stray writes, and everything when the fixed-size preplaced part is long enough; the intended sort is proved to keep all fields. Refuted: sort zeroes the first payload units and writes past the end of the buffer. Theorems in `PropertiesOpt.v`.
- **C09 Serialise / parse round trip** (partial). Image. Bytes of the serialised form as a function of the state; what a reader sees in them; the copy constructor back. *Result:* Readers of the serialised form and copies are proved to have the same fields for every tuple reached by calm histories (see C01), every reserve and buffer size, provided the reserve keeps the end of the payload within the size limit. Refuted beyond: large reserves put tail_ behind end_, and tuples with a large preplaced part are refused. Theorems in `PropertiesImage.v`.
- **C10 Whatever the library builds passes validation** (partial). Image + Audit. The interval map accepts a tiling in every insertion order. *Result:* Both the serialised and the modifiable form of every tuple reached by calm histories are proved accepted with exact hole counts. Refuted: histories that hit the listed allocator slips, tuples filling the largest buffer, and index plus variable-length preplaced fields above max_fields. Theorems in `PropertiesImage.v`.
- **C11 An accepted image is memory-safe to read** (partial). Audit, and Schema for what the validator sees. Soundness of the interval map for arbitrary bytes, by invariants of its insertion; for schemas with references anywhere, inside the image always, disjoint for the fields that the schema places itself, and refuted for imported ones. *Result:* For all byte images and any schema: an accepted image has its index, preplaced area, every payload and every hole inside it, and text/property/nested values inside. They are pairwise disjoint for every schema whose fields it places itself (and for all aligned references); refuted for imported tokens at odd offsets, where two payloads of an accepted image share bytes. Refuted for binary values, whose length formula reaches past the payload, and for zero-unit binary values at the end of the image. Theorems in `PropertiesAudit.v`, `PropertiesAuditAny.v`.
- **C12 Validation itself stays inside the image** (partial). Audit. Every function returns the list of memory ranges it reads. *Result:* Refuted as stated: the length of a variable-length payload is read before its position is checked, and the verdict can depend on bytes after the image. Proved: the reads told are all there are, all other reads are inside, and when the references lead into the image all reads are inside and the verdict is a function of the image. Theorems in `PropertiesAudit.v`.
- **C13 Variable-length binary values round trip** (partial). Codec. Bytes of the stored form for every value. *Result:* False of the code for lengths not divisible by 4 (refuted for every such value); proved for lengths divisible by 4. Theorems in `PropertiesCodec.v`.
- **C14 Strings round trip and stay NUL-terminated when space allows** (proved). Codec. Bytes of the stored form for every value, all lengths up to the limit. Theorems in `PropertiesCodec.v`.
- **C15 Over-long values are refused, never truncated** (proved). Codec. Decision of estimate_space for all lengths. Theorems in `PropertiesCodec.v`.
- **C16 Field lookup gives the same answer on every CPU** (partial). Scan. Each variant equals `find` on a list; vector lanes are 8- or 4-wide compares with movemask and count of trailing zeros. *Result:* Proved for the reference, unrolled, SSE2 and AVX2 scans for all memories, addresses, lengths (also negative) and tags, and for AVX when the thread does not run with denormals-are-zero; refuted for AVX under that mode, where every tag compares equal. Theorems in `PropertiesScan.v`.
- **C17 Index scan never touches an unmapped page** (partial). Scan. Byte ranges read by each path against the pages of the index. *Result:* Proved for the portable, SSE2 and AVX2 scans. Refuted for AVX, which reads two bytes past the end of the index in both its short case and its main loop; the partial theorem bounds AVX by the pages of the index extended by these two bytes. Theorems in `PropertiesScan.v`.
- **C18 Field tokens never alias** (proved). Tag. Pack and unpack by an arithmetic normal form. Theorems in `PropertiesCodec.v`.
- **C19 Null semantics of reads and writes** (partial). Tuple + TupleMore. One theorem per row of the decision table, for all values. *Result:* All rows of the table are proved; the loose rows hold for calm histories (see C01). Theorems in `PropertiesTuple.v`.
- **C20 Integer stores are exact or refused** (partial). Numeric + Tuple. Overload by overload, for all integers; end to end through a tuple. *Result:* Every overload of set_integer/set_unsigned/set_number and the insertions, every 32/64-bit value, every numeric type: refused without effect or read back exactly, other fields untouched; fitting numbers are accepted. Loose fields under the no-known-slip restriction (calm) of the allocator. Refuted for nullable preplaced fields given the reserved value (e.g. INT32_MIN, unsigned 0) and for the 128-bit setters (upper half dropped); set_unsigned(int64_t) proved to refuse every unsigned field. Theorems in `PropertiesNumeric.v`.
- **C21 Float to integer stores never invoke undefined conversion** (proved). Numeric. Bits of binary32 and binary64, rounding to nearest even; the conversion is undefined outside the target range and the setters are shown not to reach it. *Result:* All bit patterns of float and double modelled exactly: accepted only if the truncated value fits the field, NaN and infinities refused; double into float never becomes infinite and is the nearest float, ties to even, sign, infinities and NaN kept. Storing into a tuple and reading back proved under the calm restriction. Theorems in `PropertiesNumeric.v`, `PropertiesRound.v`.
- **C22 Schema definitions never collide** (partial). Schema, SchemaMore. Induction over lists of definitions; the throwing lookups (get_token, get_name) and the shorthands define_field and define_collection by the invariant of the lookups, tokens that compare equal to the invalid one being made by no definition. *Result:* Proved for every history of definitions, imports and refusals: names and tokens are unique, lookups by name and token give what was defined, no byte belongs to two typed fields and no two regions overlap in part, fresh definitions are accepted while there is room. Refuted for opaque regions (no bytes are reserved for them, undefined without an initial value, refused behind a field) and for imported tokens in free places. The throwing lookups find exactly the defined names and tokens unless the invalid token itself was imported (refuted then); define_field and define_collection give the kind asked for. Theorems in `PropertiesSchema.v`, `PropertiesSchemaMore.v`.
- **C23 Schema lookups agree with a linear search** (partial). Schema. Binary searches against linear ones on sorted lists of any length. *Result:* All four searches equal a linear search on every sorted table of any length (every reached schema has one). Refuted at the edges: a region at the end is not found, two tokens at one offset stop the walk by offsets, the search before the first token is undefined, offsets from 16384 wrap. Theorems in `PropertiesSchema.v`.
- **C24 Shared buffers are freed exactly once** (partial). Hippeus. Interleaving semantics with any number of threads and handles; invariant by induction over steps; sequential consistency. *Result:* Proved for every interleaving in which fewer than 2^31 handles are in use at a time; refuted beyond that (32-bit counter). Theorems in `PropertiesHippeus.v`.
- **C25 Buffers are at least as large as requested** (proved). Hippeus. Arithmetic of sizes for all requests; malloc is an input. *Result:* With and without guards; header, payload and guards lie inside the heap block, which is returned with its size. Theorems in `PropertiesHippeus.v`.
- **C26 Time conversion is monotone and accurate to one unit** (proved). Values. Fixed point arithmetic for all resolutions. *Result:* For every resolution up to 2^32 units per second, and for timespec, timeval and file time. Theorems in `PropertiesValues.v`.
- **C27 Binary comparison is a total order** (proved). Values. Order laws for every memcmp that conforms to the standard. *Result:* For every memcmp that conforms to the C standard. Theorems in `PropertiesValues.v`.
- **C28 String views have a consistent order, equality and hash** (proved). Values. The same for string views, with the hash as a function of the contents. *Result:* For every memcmp that conforms to the C standard. Theorems in `PropertiesValues.v`.
- **C29 Auto-growing tuples find room** (partial). Growth + GearOpt. Arithmetic of manage_space_deficit; then the compaction and insertion theorems. *Result:* For every state of an auto-growing tuple (calls, compactions and earlier growth in any order): when the free units including junk suffice for the value and a slot, the repeated call succeeds within two rounds, the written field has the new value and all others keep theirs; likewise when a larger buffer is taken. Excluded: the allocator slips of C01, replaced values over 2047 units, states where compaction is harmful. Refuted: the doubled index may leave tail_ behind end_; with preplaced fields the doubled data are refused although they fit; the realloc path of the C interface always sets end_ to 4294967286; making room in place passes 8191 fields and the serialised header then says none. A request no tuple can meet changes nothing (proved). Theorems in `PropertiesGrowth.v`.
- **C30 Growing or cloning a tuple keeps its bookkeeping** (partial). Image + Growth. Bookkeeping of copies with given, missing and wrong counters. *Result:* Copies that get the counters, copies of tuples without junk into a larger buffer, and fptu_fetch of a tuple without holes, are proved to behave as the original. Refuted for fptu_fetch of a tuple with holes, which always passes zero counters, and for manage_space_deficit, which copies the holes of a tuple but not their counters: a valid history of the copy ends in undefined behaviour. Theorems in `PropertiesGrowth.v`, `PropertiesImage.v`.
- **C31 The estimated buffer size is sufficient** (partial). Growth. Size arithmetic joined with the insertion theorem by induction over the additions. *Result:* A tuple made with the estimated size takes every sequence of at most n additions with at most b stored bytes, for all n and b where index and data fit 65534 units; the size a schema computes is enough for any tuple of loose fields. Refuted: when b counts the bytes of the values without their length words; when index and data together exceed 65534 units; fptu_space with more than 8191 items; the size a schema computes for preplaced fields forgets the header. Theorems in `PropertiesGrowth.v`.
- **C32 Erase by column and filter removes exactly the matching fields** (partial). Legacy. The erasing scan as a recursion over positions with the effect of each erasure; counts as sums over positions. *Result:* With a mask: proved for all worked tuples that exactly the matching fields go, the rest stays in order and the number returned is exact (no hole may become wider than 2047 units, never the case for tuples with at most 2047 units of data). With a type: proved that exactly the first match goes, exact for non-collections; refuted for collections and for the type null, which erases texts of the previous column. Theorems in `PropertiesLegacy.v`.
- **C33 Iteration visits each field exactly once** (partial). Iterators. Walks as chains of positions, in both directions. *Result:* Iterators over the index visit every entry once in both directions and their arithmetic is consistent; every field of a tuple is visited exactly once, with as many other positions as the junk counter says; a tuple without holes (e.g. just compacted) shows its fields and nothing else. Iterators over all fields visit exactly the preplaced fields that hold a value, then the index, in both directions, for schemas made by definitions without opaque regions or foreign tokens and below 16384 bytes. Refuted: holes are shown as fields; postfix ++ and -- do not move and step the wrong way; with an opaque region ++ never ends; a first field not at offset 0; stepping back over 16384 bytes of preplaced fields. Theorems in `PropertiesIterators.v`.
- **C34 Tagged pointers keep both parts** (partial). Hippeus. Bit arithmetic. *Result:* False of the code for every nonzero tag (stored in one place, read from another); proved for untagged pointers and for replacing the pointer. Theorems in `PropertiesHippeus.v`.
- **C35 Bulk memory helpers respect their bounds** (proved). Hippeus. Byte-level memory; masks on little-endian words. Theorems in `PropertiesHippeus.v`.
- **C36 Wide arithmetic and byte order helpers are exact** (proved). Erthink. Exact integer arithmetic for all operands. *Result:* Portable branches. bswap16 is modelled without the duplicated 'return' of its fallback line, which does not compile. Theorems in `PropertiesErthink.v`.
- **C37 Integer formatting is exact** (partial). Erthink. Digits for all 64-bit values by induction over the rounds. *Result:* Proved for all unsigned values and all signed values but the most negative one of each width, whose absolute value overflows (refuted). Theorems in `PropertiesErthink.v`.
- **C38 Nested tuples are stored and read back verbatim** (proved). Codec. Verbatim copy of units. *Result:* Payload level: bytes of the nested image. Theorems in `PropertiesCodec.v`, `PropertiesTyped.v`.
- **C39 Collections behave as multisets** (partial). Tuple. Multiset refinement of all histories. *Result:* Refuted by the slip of C01; proved for all calm histories. Also for ordinary use (see C01). Theorems in `PropertiesQuiet.v`, `PropertiesTuple.v`.
- **C40 Clearing a tuple makes it empty again** (partial). Tuple + TupleMore. reset as a function. *Result:* Proved whenever the tuple has room for at least one index entry; refuted for tuples created without index space. Theorems in `PropertiesTuple.v`.
- **C41 Presence test tells the truth** (partial). TupleMore. Presence against reading. *Result:* False of the code for every preplaced field: the answer is always inverted, and so is what erasing by token reports. Proved for loose fields. Theorems in `PropertiesTuple.v`.
- **C42 Byte-pattern predicates** (proved). Hippeus. Folds over words against a statement about bytes. Theorems in `PropertiesHippeus.v`.
- **C43 On-stack arena never hands out overlapping memory** (partial). Arena. Invariant over histories of requests and releases. *Result:* Proved for all call sequences in which no request exceeds 2^64 - alignment bytes; refuted for larger requests (rounding wraps to zero), and the arena is refuted to be empty again when chunks were given back in another order than the reverse. Theorems in `PropertiesArena.v`.
- **C44 Buffer tags keep allocator identity and flags** (proved). Hippeus. Pack and unpack. Theorems in `PropertiesHippeus.v`.
- **C45 Update changes only existing fields, upsert always stores** (partial). Legacy on top of Tuple: the effect of one set call at the position found by the lookup. *Result:* Update of an absent field: proved for every state. Update of a present field and upsert: proved for all calm writes from all worked tuples (one instance replaced, everything else untouched, or no space and nothing changed). Refuted for nested tuples (upsert always refused) and for inserting all-zero fixed binaries (dropped silently). Theorems in `PropertiesLegacy.v`.
- **C46 Integer reads are exact** (proved). Numeric. All stored values of all numeric types. *Result:* get_integer, get_unsigned and get_number_as_ieee754double give exactly the stored number, a type mismatch, or a range error only beyond 2^53-1; float to double exact; nullable preplaced fields holding the reserved value read as absent. Theorems in `PropertiesNumeric.v`.
- **C47 Fields inside preplaced structures are aligned so that references resolve** (partial). Schema. Placement arithmetic; references are resolved in units of four bytes. *Result:* Every variable-length field made by the schema itself is aligned and its reference leads back to the payload; the layout meets the conditions of the tuple model, so the history theorems apply (with their proviso). Refuted for imported tokens at odd offsets. Theorems in `PropertiesSchema.v`.
- **C48 empty() and the field count tell the truth** (proved). TupleMore. Counts against the invariant. *Result:* For states reached by calm histories. Theorems in `PropertiesTuple.v`.
- **C49 Memory guards tell intact from damaged** (proved). Hippeus. Guard words as functions of a random word and a signature. Changes within one byte: MixProofs.v, see C78. *Result:* Setting up always ends: the generator visits every 32-bit value and every signature has a good start. Any change within one byte (or one bit) of a guard is noticed. A larger change of the random word, or of the signature, is detected only up to collisions of the mixing function, of which two are shown. Theorems in `PropertiesGuarded.v`, `PropertiesHippeus.v`.
- **C50 Size classes are the tightest that fit** (proved). Hippeus. Rounding of sizes, all sizes. Theorems in `PropertiesHippeus.v`.
- **C51 Replacement string routines conform to the C standard** (proved). Values. Loops of strnlen and memrchr against their specification. Theorems in `PropertiesValues.v`.
- **C52 Hexadecimal dumps are faithful** (proved). Values. Digits of every byte; the dump read back. Theorems in `PropertiesValues.v`.
- **C53 Reduced-precision time clears exactly the bits asked for** (proved). Values. Bits of the fixed point fraction. Theorems in `PropertiesValues.v`.
- **C54 New tuples start with the declared initial values** (partial). Schema. The image as a byte string extended by definitions, by induction. *Result:* Proved for all histories in which no preplaced token is imported verbatim afterwards. Refuted for an imported token inside an earlier region. Theorems in `PropertiesSchema.v`.
- **C55 Legacy lookup and count find exactly the asked fields** (partial). Legacy. Scans as sums and searches over positions; the condition in plain arithmetic. *Result:* Proved for every mask, and for every type with columns up to 2047; refuted for larger columns with a type (they run over into the next type), for the type null and for the documented negative column of deleted fields. Theorems in `PropertiesLegacy.v`.
- **C56 A field as a block of bytes is its value** (partial). Legacy + Codec. The block as a range of the stored bytes, type by type. *Result:* Proved for nested tuples; refuted for all fixed types (units taken for bytes), the in-place types (nothing), texts and binaries (block begins at the header). Theorems in `PropertiesLegacy.v`.
- **C57 Stored text reads back as a C string** (partial). Legacy + Codec. Stored form followed by arbitrary memory, read as a C string. *Result:* Proved for every non-empty text and every memory behind the field; refuted for fields of other types, whose payload address is followed before the type is checked. Theorems in `PropertiesLegacy.v`.
- **C58 Stored binaries compare by their contents** (partial). Legacy + Codec. memcmp as a recursion against an inductive lexicographic order. *Result:* The comparison itself is proved to be the lexicographic order (independent inductive definition) for all byte strings; fixed binaries proved; variable-length binaries proved for lengths divisible by 4 and refuted for all others (a stored value is not equal to itself). Theorems in `PropertiesLegacy.v`.
- **C59 Legacy getters tell absent fields from present ones** (partial). Legacy. Getters as reads through a token without the flag for discernible nulls. *Result:* Present fields proved for all types but text; absence is reported by the text getter only (proved), refuted for every other type in every state. Theorems in `PropertiesLegacy.v`.
- **C60 Printed doubles read back** (proved). D2a. Error bounds of the scaled product and of every generated digit, table entries and exponents checked one by one, then: no other double is as near to the text as the printed one. *Result:* For all 64-bit patterns and both modes; reading back is stated as: no double of another value is as near to the text. Theorems in `PropertiesD2a.v`.
- **C61 Accurate mode prints the nearest decimal** (partial). D2a. Two doubles computed through the model; the bound on the digits from the same invariant as C60. *Result:* Refuted as stated: the accurate mode prints 39381387207177763e+98 where ...764e+98 is nearer, and 20e-324 where 2e-323 reads back; proved: at most 17 digits, or the exact integer. Theorems in `PropertiesD2a.v`.
- **C62 Printer with decimal and exponential form** (partial). D2a. Each of the four forms read back by an independent reader. *Result:* Proved for limits of the decimal form between -14 and 14 (the default is -4 and 10); refuted for -15 (writes before the buffer) and 15 (a stale byte in the text), which the assertions of the code admit. Theorems in `PropertiesD2a.v`.
- **C63 Counters of buffers and the program's variables** (proved). Managed. One invariant over all calls: counters equal the number of variables, checked call by call; undefined behaviour is an outcome of its own. *Result:* No-use-after-free for calls that take no nested tuple out of a modifiable one (see C64) and not through hollow handles, which the code does not check. Theorems in `PropertiesManaged.v`.
- **C64 Handles are isolated from each other** (partial). Managed. The invariant extended by exclusiveness of writers; a frame lemma per call. *Result:* Proved for programs that do not call get_nested_managed() of a modifiable tuple; refuted with it: the handle shares the writer's buffer, changes with it and dangles. Theorems in `PropertiesManaged.v`.
- **C65 Copies, moves, clones and growth keep the contents** (partial). Managed. What a handle shows, before and after each kind of call. *Result:* Proved for every conversion, assignment and growth; refuted: a readable tuple moved to itself is lost, and the noexcept constructor of tuple_rw_managed ends the program; clones into malloc memory always throw. Theorems in `PropertiesManaged.v`.
- **C66 Copies carry valid schema and counters of junk** (partial). Managed. A predicate on buffers kept by every call that is careful; two counterexamples run through the model. *Result:* Proved for calls with care (no growth with holes, clones with a schema validated); refuted: the default validation of a clone with a schema is skipped, against its comment, and growth forgets the counters of junk. Theorems in `PropertiesManaged.v`.
- **C67 optimize() reports whether iterators became invalid and runs when asked** (partial). GearOpt. From the invariants of C07: junk units belong to junk index slots, so an answer of false means an unchanged state. *Result:* Answers of optimize() proved for states reached by calm histories; refuted: take_weak() and take_managed_clone() do the opposite of their argument. Theorems in `PropertiesOpt.v`.
- **C68 Type numbers, filters, tags and names of the C interface agree** (partial). Text. Closed form of a tag by linear arithmetic; finite tables of types checked whole; names apart because decimal numbers read back. *Result:* Numbers, filters, tags and distinctness of names proved; refuted: make_tag accepts a column above 2047 and returns the tag of another type; booleans, addresses and networks have no name. printf is taken as the C standard gives it. Theorems in `PropertiesText.v`, `PropertiesTraits.v`.
- **C69 The text of a date names the nearest nanosecond** (proved). Text. The counting calendar is related to a closed formula for days; fixed-width fields are read back by position and compared as words. *Result:* gmtime and printf are taken as the standards define them (proleptic Gregorian calendar, no leap seconds; decimal rounding to nearest, ties to even). Theorems in `PropertiesText.v`.
- **C70 Errors of the C interface are told faithfully** (partial). Text. Case analysis over calls and exception classes. *Result:* Proved for the guarded getters and for the functions that return codes; refuted: fptu_get_cstr leaves the integer untouched on success, std::bad_array_new_length is told as an invalid argument, FPTU_ENOMEM has no text. Theorems in `PropertiesText.v`.
- **C71 How much room is asked for and how much is made** (partial). Growth + Gear. Case analysis of the allocator for failures; nonlinear arithmetic of the proportional share; sizes through a table of five standards. *Result:* Proved: failures name a missing amount (no hole wider than 2047 units), removal of loose fields never fails, the share inside the buffer, the standard sizes, and what realloc carries over. Missing: growth with preplaced junk above 2047 units; the end of a realloc-grown tuple is wrong (C29). Theorems in `PropertiesPolicy.v`.
- **C72 Bytes the validator accepts can be opened and edited** (partial). Audit + Image + Gear. From the accepting run of the validator the accounting invariant of the writer is rebuilt: the chunks it collected are the cover; then the history theorem of C01 and the image theorems of C09 apply. *Result:* Proved for accepted bytes that are put together properly (no value of zero units, some owner of the payload, holes apart from each other and from the end), which all images written by a calm history are; refuted without it: adjacent holes, units without owner and values of zero length laid over others are accepted and damage later edits. Theorems in `PropertiesAccept.v`.
- **C73 Checking, sizing and opening through the C interface** (partial). Facade. Induction over the check for termination without exceptions; the estimate is compared with what opening takes; concrete images for the counters kept between two calls. *Result:* Proved: the check always answers, the two calls fit together, errors and refusals are told, new tuples. Refuted: fptu_get_buffer_size ends the process for too many items; the counters kept between the two calls may belong to other bytes. Theorems in `PropertiesFacade.v`.
- **C74 A tuple's own numbers agree with its contents** (partial). Facade + Gear. The invariant's sum of holes against the length of the index; compaction theorem of C07; concrete states for the wrong sizes. *Result:* Proved for states of calm histories with compaction and growth: counts, room, payload and capacity, junk, sizes, emptiness. Refuted: netto_size takes units for bytes, fptu_is_empty_ro calls a tuple with only preplaced values empty. Theorems in `PropertiesFacade.v`.
- **C75 Trivial convertibility between types tells the truth** (partial). Traits. Values as dyadic numbers; inclusion of value sets decided by limits for whole and binary formats, with explicit witnesses against; the finite table checked by computation. *Result:* Proved: for numeric types other than unsigned bytes and signed bytes to unsigned types, convertible exactly when the value set is included; all other types; both tables agree. Refuted: signed bytes to every unsigned type are called convertible, unsigned bytes to nothing, 64-bit times to 32-bit ones. Theorems in `PropertiesTraits.v`.
- **C76 Values of fixed size are copied whole and nothing else is touched** (partial). Traits. Memory as a function; pointwise equality of the copy, sizes checked over the finite list of types. *Result:* Proved for every fixed type but networks. Refuted for networks: three bytes behind the object are read; they never get into the tuple. Theorems in `PropertiesTraits.v`.
- **C77 Typed values survive editing, compaction and serialisation** (partial). Each typed value is encoded to the units of a payload and read back (TypedProofs.v, by cases on the type and list induction in steps of four bytes); the last successful write then determines the units by the history theorem (induction on calls), compaction keeps them by the compaction theorem, and the serialised bytes hold them by the image theorem. Minus zero, bare nested headers and odd binaries are refuted by evaluation. *Result:* Proved for text, properties, nested tuples, all fixed-size types and binaries whose length is a multiple of four, for calm histories (no call meets one of the allocator slips refuted elsewhere). Missing: binaries of other lengths (refuted: wrong length), minus zero and bare nested headers in fields that do not distinguish empty values (refuted: read back as plus zero and null). Theorems in `PropertiesTyped.v`.
- **C78 The guarded allocator** (partial). Invariant over histories by induction (all live guards intact, base blocks disjoint, base ledger equal to what the live blocks need). One changed byte: for the upper three bytes a 2-adic argument on the halves of the product (both differences must end in the same number of zero bits), for the lowest byte the values that can collide lie near the 208 multiples of 2^24 of the high half, where a congruence leaves two candidates that are evaluated. Two changed bytes, wrapped limits and misaligned guards are refuted by evaluation. *Result:* No false alarm, balance, layout, detection of any one changed byte, of changed derived words, blanked words and second releases are proved for all histories. Refuted: two bytes written past the end can go unnoticed; the limit wraps for a base smaller than two gaps; guards are misaligned 64-bit objects for odd lengths and for element sizes like 12 (the library's own buffers are proved aligned). Theorems in `PropertiesGuarded.v`.
- **C79 Accessors kept while the tuple is edited** (partial). Refinement: while each field with a held accessor is named only through it, the stored position equals what a fresh lookup finds, by induction over the program; the last write then follows from C01. Positions: frame lemma of each call. Without that discipline (two accessors of one absent field, an entry reused by another field of the same type, removal through a null pointer, compaction) the sentence is refuted by evaluation. *Result:* Refinement to calls by token, last write and stable positions are proved for all programs in which a field with a held accessor is named only through it. The last sentence does not hold of the code: stale or doubled accessors act on other entries (C79_twins_refuted, C79_reused_entry_refuted, C79_compaction_refuted) and remove() follows a null pointer (C79_remove_absent_refuted). Theorems in `PropertiesHeld.v`.
- **C80 Recognising reserved words** (partial). Soundness by comparing strings up to the terminator and one evaluation over the 56 slots; completeness by evaluation of the 42 words with an arbitrary memory behind them. Bytes above 127 in the first two places and words inside a longer text are refuted by evaluation. *Result:* Proved for NUL-terminated strings whose first two bytes are below 128. The code reads past its table of 128 entries for other bytes (C80_eight_bits_refuted) and compares up to the terminator, not up to len (C80_slice_refuted). Theorems in `PropertiesKeywords.v`.
- **C81 Setters, getters and insertions named after types** (partial). The three tables are compared name by name and type by type; arguments become bytes and back by arithmetic modulo powers of two; histories come from C77. That no insertion accepts a collection of dates kept as seconds, and that two types have no setter, follows from the tables. *Result:* Proved: setters and getters agree for every name and type; the round trip of every argument over all histories (dates in t32 fields floored to the second), reading under synonyms, insertion of exactly one element, refusal of other types. Refuted: insert_datetime cannot fill a collection of t32 (no insertion can), and the types app_reserved_64 and app_reserved_128 have no setter, and the wrappers get_int128/get_uint128 of the public classes return a reference to a temporary. Excluded as in C77 and C20: minus zero, bare nested headers, binaries not of whole units, 128-bit integers wider than 64 bits in narrower fields. Theorems in `PropertiesNamed.v`.
- **C82 Tuples made by a named scale** (partial). The sizes are computed symbolically from the three tables and the two estimates, giving an exact condition for success; the fields and the invariant come from C09's theorem on moved tuples. *Result:* Proved: the exact condition under which a new tuple of a scale, a clone of a scale and a clone with the source's reserve are made, and that they then have the fields of the source and the promised room whenever items and payload together fit 65534 units; opening bytes equals cloning. Refuted: the largest scale cannot be had with any schema that has a preplaced field, although estimate_space_for_tuple() gives a size for it; without one it has an eighth less room than promised; clones of tuples with preplaced fields fail because the preplaced part is counted twice (with the largest scale for every payload over 32 KB); when the reserve of items does not fit besides the payload the clone is made with the end of its payload behind the end of its buffer, at every scale. Buffers are assumed to be lent with at least the size asked for and at most the limit; failures of allocation are left out. Theorems in `PropertiesScales.v`.
- **C83 Walking over a collection while editing it** (partial). Induction on the position of the iterator: what lies behind it is either still in the index or a hole, so the search finds exactly the members left; the effect of each act comes from the step lemmas of C01/C02. For arbitrary calls in the body: every call keeps "in the index or a hole" for all positions, also for those it cuts off (call_keeps), so the current element may be removed at any moment. The refutations are universal: a reference to the iterator is nulled by the removal, postfix ++ never moves, a reversed range never meets its end. *Result:* Proved for loops over copies of the elements with any calls before and after the act, also calls that remove the current element or fill its place (C83_any_calls; C83_walk_meets_every_element, C83_acts_exact, C83_remove_if), and for ranges from any member to any later one or the end (C83_erase_range, C83_erase_any_range), under the condition that the calls do not meet the slips of the allocator (C01, C04). Refuted, for all tuples: removing through a reference to the element ends the loop after the first removal (C83_remove_by_reference_refuted), a range whose end lies before its beginning never ends (C83_reversed_range_refuted), postfix ++ never moves (C83_postfix_refuted). Theorems in `PropertiesWalk.v`, `PropertiesWander.v`.
- **C84 Comparing tokens, and fields with tokens** (partial). The flags are split off the tag arithmetically, which turns sameness, order and hash into statements on numbers; the hash is a product below 2^64 followed by an xor-shift, both injective. The iterator theorems use the sorted tables of C23 and the walk of C33; the search is the collection of C02 read backwards. Refuted: antisymmetry of <= against ==, equality with a token whose attributes were overridden, tokens of holes, the member found in a collection. *Result:* Proved: order, sameness, hash, iterators against tokens and searches by token for fields that do not repeat. Refuted: <= both ways without ==; a preplaced field against a token with overridden attributes; tokens of holes; searches in collections find the oldest member, the getter the newest. Theorems in `PropertiesTokens.v`.
- **C85 Life of a shared buffer in memory** (partial). The header is modelled byte by byte in the memory of C78; every operation is a write to a known range, so soundness is a frame argument over disjoint ranges, and damage reduces to the one-byte theorem of C49. Tags are split arithmetically (C44), sizes come from C25. Pages are counted with quotients. Refuted: empty buffers pass check() and fail ensure(); lengths of 2^32 and more are cut; the fields between the guards are not protected; buffers of shared allocators end the process when released; the read-only flag of a tag is lost; the last page can go unprobed. What the flags of the tag say is read off its bits (C85_kinds); lengths of a payload kept apart are refused from 2^63 on (C85_apart). *Result:* Proved for lengths below 2^32, local tags, any memory and any guard values; pages: the exact condition. Refuted: an empty buffer passes check() but not ensure(), longer payloads are cut, fields of the header are not guarded, shared tags cannot be borrowed from or released (the process ends), flags of the tag are lost, the last page can go unprobed. Theorems in `PropertiesBuffers.v`.
- **C86 Values read from a tuple can be stored in it again** (partial). The codecs are replayed on the arena with the source bytes read at the moment of the copy, that is after the chunk has been found and after the stores before the memcpy. For another live field the chunk is disjoint from the view (the accounting invariant), so the late bytes are the bytes of the value and everything proved for copies applies; copies to other fields are read back through C77. Refuted: a field stored in itself loses the bytes of its last unit, a nested tuple stored in itself becomes a field of no units and breaks the invariant, a managed tuple that grows reads the released buffer, and one that compacts in place stores bytes of other fields with success. *Result:* Proved for every other live field, loose, collection member or preplaced, in plain tuples and in managed ones with room: same outcome as with a copy. Refuted for the field itself, for nested tuples, and for managed tuples that grow or compact. C86_released_exactly, C86_given_up, C86_unfit: exactly when the growth releases the buffer behind the view, and that calls given up with copies are given up with views. Theorems in `PropertiesAlias.v`.
- **C87 Removing a preplaced field never harms the others** (partial). The condition of the refusal is derived from the searches for adjacent holes and index entries. The state it leaves differs in one counter; compaction commutes with that counter, so its result is the compacted tuple of C07 with an end that is too low, and the coverage invariant names a field that owns the unit at the new end. The handler of the auto-growing tuple is computed on that state. The repaired order is proved with the room lemmas of C29. *Result:* Proved: the exact condition of a refusal, and that with the junk counter raised after the index entry is found the handler of an auto-growing tuple makes room (in place or in a larger buffer) and the removal then succeeds, all other fields keeping their values. Refuted for all states: a refused removal counts the payload as junk although it stays; a later compaction cuts as many units of live fields off and the next appended value overwrites them; the handler of an auto-growing tuple starts exactly that compaction, reports success and another field loses its value; erasing a present preplaced field by token or iterator does nothing. Missing: payloads of more than 2047 units and unset preplaced fields or empty loose ones beside the refused field (C07). Theorems in `PropertiesRemoval.v`.
- **C88 String views keep their bytes, and nil stays nil** (partial). The casts between signed and unsigned counts are computed for the three ranges; conversions, swaps and accesses then follow by cases on nil. Walks are proved by induction on the number of bytes, texts by induction on the search for the zero byte. Comparisons are reduced to C28. *Result:* Refuted: nil converted to a standard string or view comes back as a non-nil view of null; counts of 2^63 and more and reversed ranges make nil views with an address; the order is not that of standard strings; memcmp may get a null; proved: everything else, with exact conditions. Theorems in `PropertiesViews.v`.
- **C89 The scan routine chosen for a processor runs on it** (partial). The fields of the table are computed for every combination of highest leaves; a test with a shifted one is shown to be the test of that bit, so each question reduces to the bit in the manual. The choice is then a cascade of those bits. Equality of answers is C16. *Result:* Refuted: the question about RDRAND looks at the hypervisor bit; AVX routines are chosen without asking whether the system saves AVX registers, so they trap where it does not; a choice made before the constructor of the table never uses vector instructions. Proved: all other questions, leaves read, and the choice where the system saves the registers. Theorems in `PropertiesCpu.v`.
- **C90 A view taken of a modifiable tuple shows the tuple until it is changed, and comparison tells whether it still does** (partial). The header is an entry of the index just past its end, so taking a view is a change above the part that the tuple's invariant speaks of. An invariant of the later calls says that entries given up are holes and the header is untouched; removals keep it because all their writes are below the old end. Reading through the old header then meets the present entries and holes. A simulation through every function of the gear shows that nothing above the end of the index is ever read, hence that views taken between calls have no influence (StaleTwin.v). For calls of any kind: entries cut off the index are holes (WanderProofs), so the view shows the tuple while the unit of its header is intact. *Result:* C90_take: taking shows exactly the fields, changes nothing and may be repeated. C90_take_silent: with views taken anywhere between any calls, the same calls succeed and the same tuple results. C90_survives_any_calls: after any calm run of calls (values of other lengths, fields added in the place of removed ones, an index that grew and shrank) the old view shows exactly the present fields by position, with its old size, as long as the unit of its header is intact and the index is not longer; equality says whether the index has shrunk. C90_valid_any_calls: if index and data end where they did, the view passes validation. (C90_survives_partial, C90_valid_partial: removals and same-length stores keep the header.) Refuted: after data shrank the tuple still equals a view that validation refuses (C90_size_refuted); a new index entry is written over the header, so the number stored becomes the view's size (C90_grown_refuted, every tuple without junk); adding and removing a field leaves an equal view without fields (C90_equal_refuted); comparing a moved-from tuple with a view goes through a null pointer (C90_moved_refuted). C90_handles: symmetry, consistency of == and !=. A value that has grown reaches past the end of a view that still equals the tuple (C90_longer_value_refuted). Missing: which calls other than removals and same-length stores keep the header is not characterised. Theorems in `PropertiesStale.v`, `PropertiesStaleAny.v`.
- **C91 Views and references handed out by getters keep showing their field while other fields are edited** (partial). The effect of one call on the fields now also says that the payloads of all other live fields keep their address; induction over the calls then keeps address, length and all units of a field that no call names. References are compared with copies by showing that finding room changes no unit of data, so the bytes read late are the bytes read early. *Result:* Proved: no call that does not name a field moves its payload or changes a unit of it (C91_payload_stays), so views and references keep their value and are the ones that would be given again (C91_views_stay, C91_references_stay); a value of fixed size, or one of the same length, set in place shows through (C91_set_shows, C91_same_size_shows); a setter given a reference into the tuple does what it does with a copy (C91_store_reference, C91_references_fit), also in managed tuples while there is room or when the call is given up. Calls are calm (see C01). Refuted: a longer text moves away from its view, removal (also by setting zero) leaves old bytes that the next field replaces, compaction moves fields from under references, an absent field's reference never shows the field, and managed setters read a released buffer after growth or store torn bytes after compaction. Theorems in `PropertiesReferences.v`.
- **C92 Typed reads and writes of fields happen at addresses that suit their types** (partial). Addresses in bytes are added to the model in units: the area begins 40 bytes behind the tuple. Types that need at most four bytes are shown to suit always. For the wide ones the place of a new field is computed for any tuple without holes, so that two wide fields around a field of one unit differ by an odd number of units; offsets given by definitions are computed in the same way, whatever the schema held before. A parity invariant carried through histories gives the positive part. *Result:* Types of at most 32 bits and packed types always suit (loose, and preplaced by definition). Refuted for 64-bit types, addresses and 128-bit numbers: two wide fields around a narrow one are never both readable, in any tuple without holes and in any tuple of a schema; one more reserved field, moving the border, compaction and copying flip readability; buffers and images at odd addresses are accepted. Readable in tuples with only even-sized fields. Theorems in `PropertiesAligned.v`.
- **C93 A structure laid over the preplaced part and the tokens of its members agree** (partial). A structure is a list of member types; offsets, packed or natural, are computed by recursion, and disjointness is shown by induction for every list. Tokens are computed with the widths of the C++ types and compared with those the schema makes. Sequences of calls on members are run on the bytes of the preplaced part. Entering all members into an empty schema is shown to succeed by induction with the invariant of schemas, and to write outside of the image as soon as a member is narrower than its field. *Result:* Holds for every structure whose members are as wide as their fields, packed or not: tokens equal those of the schema, members are disjoint and aligned, any sequence of sets shows the same through structure and tokens, and entering all members succeeds. Refuted (for all cases, not only examples): references (2 bytes, field 4) and enumerations not of 2 bytes have tokens the schema would not make; references and 1-byte enumerations are entered with a write behind the image; setting a 1-byte enumeration overwrites its neighbour; a 4-byte enumeration shows negative values as positive; set_i8 leaves invalid bytes in bool members; erasing a member does nothing; offsets from 16382 on give loose or repeated tokens; of two neighbouring references one never resolves, as all of the documented example; padding may lie outside of the preplaced part (exact condition); value() throws where the getter gives empty; data() is the header. Theorems in `PropertiesNative.v`.
- **C94 The space estimated for a modifiable tuple and more is enough for such a copy** (partial). The answer is computed with the sums of size_t, and characterised exactly where they do not wrap. Copies are those of the model of images, so the fields and the room follow from the relation between a tuple and its copy, and the later additions from the induction over histories. The least size is proved to be an equivalence. Wrapped sums, refusals and the cut-off are refuted for every tuple that meets the bounds, not for one. Tuples with holes: an addition takes at most one entry and its own units of the room whichever hole the search finds, and is refused only without them, so calm additions within the room all succeed (C94_enough_with_holes). *Result:* Proved when the sums do not wrap: when there is an answer and which (C94_exact_partial); the copy with the room, and all additions within it (C94_enough_partial); the least size as an equivalence (C94_least). Refuted: the preplaced bytes are counted twice, so the answer is not least with a schema (C94_excess_partial gives the bounds); sums wrap and the answer is less than the contents take, for every tuple with items (C94_wrap_refuted); the question is refused where copying with the same numbers is not (C94_refused_refuted); near 65534 units the promised room does not exist in any buffer (C94_largest_refuted). With holes the additions are proved to go through when they stay clear of the allocator's slips (C94_enough_with_holes); without holes that is not needed. Theorems in `PropertiesWider.v`, `PropertiesWiderHoles.v`.
- **C95 Assignment to the accessor of a field** (partial). One function gives the call that an assignment makes, from the overload taken; acceptance is decided by arithmetic on the range checks of the numeric setters; reading back comes from the theorem on histories together with what the plans of numeric calls store (C20) and the round trips of named setters (C81); a chain is shown to be a run of calls from the right. Refuted: accessor to accessor is the defaulted operator and changes nothing; arrays of characters are cut at the first zero; truth values are refused by other integer fields; no operator takes binary data of variable length; a chain that throws leaves its right part done; doubles within 2^-150 of zero remove a float field. Rounding between the two types (RoundProofs.v) is shown to give the nearest number by exact arithmetic on scaled integers. *Result:* Proved: which integers every type of field takes (exactly those it has room for), which text and truth values, that every type but three takes something; that an integer, a floating-point number (cut in integer fields, exact in fields of its own type), text or other value taken is read back after any history that leaves the field alone; that a chain is the sequence of its calls and gives an integer to every field in it. A float in a field of doubles is read back exactly; a double in a field of floats is refused exactly if it is beyond the floats, else the nearest float is read. Refuted: accessor to accessor changes nothing; arrays of characters are cut at a zero or read beyond their end; truth values are refused by other integer fields; three types can be assigned nothing; a chain that throws leaves part of it done; doubles within 2^-150 of zero remove a float field; on an auto-growing tuple an assignment throws where the setter makes room. Theorems in `PropertiesAssign.v`, `PropertiesRound.v`.
- **C96 Times as numbers of seconds, and the order of times** (partial). The addition of the two parts is shown to be one rounding of the fixed-point word to 53 bits, so that nearness follows from the theorem on rounding (C21), and the order from the monotonicity of rounding across powers of two. Exactness and the whole part are characterised for every time. Refuted: from 1970-01-25 on every second has times whose seconds() falls into the next second, and different times with the same seconds(); a time_t outside 32 bits is taken modulo 2^32. *Result:* Proved: the fraction is exact; seconds() is the nearest double, less than 0.24 us off, exact exactly for the times characterised (C96_seconds_exact), monotone, strictly so for times more than 2^11 ticks apart; its whole part is characterised (C96_whole_second); the operators are one total order and agree with seconds() up to ties; what a time_t becomes. Refuted: from 2^21 seconds on (1970-01-25) the whole part of seconds() is the next second for some times of every second, and different times have the same seconds(); a time_t before 1970 or after 2106 becomes another time (C96_time_t_refuted). Theorems in `PropertiesSeconds.v`.
- **C97 The kinds of a token say what its field takes** (partial). The type of a tag is a number up to 31 whatever the tag, so the masks are compared with the types named by the switches of Numeric.v case by case, and the theorems lift this to all tags, values and attributes. Refuted: decimals are numbers, floating and signed by their kind and no generic setter or getter takes them; a boolean is every integer of one byte, an enumeration every signed integer of two. *Result:* Proved for all tags, values and attributes: the kinds fit together, belong to the field, and are what the generic setters and getters take, decimals excepted. Refuted for decimals (numbers by kind, taken by no generic setter or getter) and for booleans and enumerations (the same types as signed integers of one and two bytes). Theorems in `PropertiesKinds.v`.

## Trusted base
- Coq 8.16.1 kernel, and `vm_compute` for the concrete witnesses (`coqchk` re-checks them without the virtual machine).
- No axioms.  All theorems are closed under the global context (list below).  `coqchk` lists seven names
  `Coq.ssr.ssrunder.Under_rel.*` of the standard library among the axioms of the loaded files; they are parameters of a module
  of ssreflect that `lia` and friends load, and no theorem rests on them.
- The reading of the C++ sources (every definition cites its source lines).
- Little-endian layout, 8-bit bytes, two's complement, `NDEBUG` build, `uint_fast32_t` of 64 bits.

## Not modelled
Machine code and compilers; exception unwinding other than the state left behind; `malloc`
failure; hardware memory ordering (atomic accesses are sequentially consistent); JSON and other files under `TODO/`;
the shortest printing of floating point numbers (`erthink_d2a.h`); debug memory poisoning.

## Assumptions of the property theorems
Output of `Print Assumptions` for every theorem below: `Closed under the global context`.

- C01: `C01_trap_refuted`, `C01_big_removal_always_refuted`, `C01_ordinary_use_partial`, `C01_read_your_writes_partial`, `C01_continuation_partial`, `C01_adding_only_partial`, `C01_read_your_writes_refuted`, `C01_big_removal_refuted`
- C02: `C02_ordinary_use_partial`, `C02_frame_partial`, `C02_frame_refuted`
- C03: `C03_failed_write_noop_partial`, `C03_failed_insert_noop`, `C03_failed_slot_release_refuted`
- C04: `C04_exact`, `C04_ordinary_use_partial`, `C04_payload_placement_partial`, `C04_overlap_refuted`, `C04_wide_search_refuted`, `C04_writes_stay_inside_partial`
- C05: `C05_holes_followed_partial`, `C05_holes_at_most_fields_partial`, `C05_counters_exact_partial`, `C05_counters_exact_refuted`, `C05_netto_size_refuted`, `C05_brutto_size_partial`
- C06: `C06_swap_always_refuted`, `C06_swap_refuted`, `C06_after_compaction_partial`, `C06_spare_index_partial`, `C06_insert_succeeds_partial`, `C06_grow_at_tail_refuted`
- C07: `C07_compaction_partial`, `C07_then_history_partial`, `C07_optimize_partial`, `C07_null_field_refuted`, `C07_unset_preplaced_refuted`
- C08: `C08_far_fields_kept_partial`, `C08_padded_partial`, `C08_repaired_sort`, `C08_sort_destroys_refuted`, `C08_sort_overflow_refuted`, `C08_below_threshold`
- C09: `C09_readers_see_the_fields_partial`, `C09_copy_partial`, `C09_copy_made`, `C09_from_buffer_partial`, `C09_reserve_refuted`, `C09_preplaced_refuted`
- C10: `C10_accepted_partial`, `C10_refuted`, `C10_full_tuple_refuted`, `C10_many_fields_refuted`
- C11: `C11_extents_inside_and_disjoint`, `C11_values_inside`, `C11_refuted_varbin`, `C11_refuted_hollow_varbin`, `C11_no_holes`, `C11_sorted_flag`, `C11_inside_for_any_schema`, `C11_disjoint_for_defined_fields`, `C11_imported_reference_refuted`
- C12: `C12_refuted`, `C12_refuted_verdict`, `C12_other_reads_inside_partial`, `C12_inside_partial`, `C12_reads_are_all`, `C12_rw_reads_are_all`
- C13: `C13_varbin_roundtrip_refuted`, `C13_varbin_roundtrip_partial`
- C14: `C14_string_roundtrip`, `C14_pool_tag`
- C15: `C15_overlong_refused`, `C15_property_never_truncated`
- C16: `C16_referential`, `C16_unroll`, `C16_SSE2`, `C16_AVX2`, `C16_AVX`, `C16_same_on_every_cpu`, `C16_two_cpus_agree`, `C16_walk_meets_every_entry`, `C16_float_comparison`, `C16_AVX_with_daz_refuted`
- C17: `C17_portable_reads_index_only`, `C17_SSE2_reads_index_pages_only`, `C17_AVX2_reads_index_pages_only`, `C17_AVX_partial`, `C17_AVX_refuted`, `C17_AVX_main_loop_refuted`
- C18: `C18_loose_token_recovers`, `C18_preplaced_token_recovers`, `C18_loose_tokens_same`, `C18_preplaced_tokens_same`, `C18_preplaced_and_loose_differ`, `C18_index_descriptor`
- C19: `C19_loose_reads_partial`, `C19_empty_removes`, `C19_empty_stored`, `C19_nonempty_stored`, `C19_fixed_preplaced`, `C19_address_reserved`, `C19_fixed_preplaced_frame`
- C20: `C20_set_partial`, `C20_insert_partial`, `C20_preplaced`, `C20_reserved_refuted`, `C20_fitting_accepted`, `C20_unsigned_overload`, `C20_128_refuted`, `C20_128`, `C20_zero_float`
- C21: `C21_defined`, `C21_stored_partial`, `C21_narrowing`, `C21_nearest`
- C22: `C22_names_and_tokens`, `C22_lookup_attributes`, `C22_storage`, `C22_accepted`, `C22_loose_limit`, `C22_import_closes_type_refuted`, `C22_opacity_refuted`, `C22_opacity_undefined_refuted`, `C22_opacity_refused_refuted`, `C22_import_order_refuted`, `C22_throwing_lookup`, `C22_throwing_lookup_refuted`, `C22_shorthands`
- C23: `C23_tables_sorted`, `C23_by_offset`, `C23_by_loose`, `C23_next_partial`, `C23_outside`, `C23_prev_partial`, `C23_by_offset_end_refuted`, `C23_next_refuted`, `C23_prev_undefined_refuted`, `C23_prev_wraps_refuted`
- C24: `C24_freed_exactly_once_partial`, `C24_alterable_means_alone_partial`, `C24_counter_overflow_refuted`
- C25: `C25_space_sufficient`, `C25_repays_same_block`, `C25_granted_iff_in_range`, `C25_layout`
- C26: `C26_seconds_exact_fraction_within_one`, `C26_order_kept`, `C26_timespec`, `C26_timeval`, `C26_filetime`, `C26_unit_can_be_lost`, `C26_named_units`, `C26_late_time_refuted`
- C27: `C27_lexicographic`, `C27_total_order`, `C27_fixed_width`, `C27_missing_field`
- C28: `C28_compare_exact`, `C28_total_order`, `C28_hash_consistent`, `C28_length`, `C28_hash_range`, `C28_nil_distinct`
- C29: `C29_retry_in_place_partial`, `C29_grow_partial`, `C29_refusal_changes_nothing`, `C29_doubled_index_refuted`, `C29_preplaced_refuted`, `C29_legacy_growth_refuted`, `C29_too_many_fields_refuted`
- C30: `C30_growth_refuted`, `C30_copy_behaves_partial`, `C30_fetch_refuted`, `C30_fetch_insert_refuted`, `C30_fetch_without_holes_partial`
- C31: `C31_estimate_partial`, `C31_payload_bytes_refuted`, `C31_largest_refuted`, `C31_fptu_space_refuted`, `C31_schema_size_partial`, `C31_schema_size_refuted`
- C32: `C32_filter_exact_partial`, `C32_filter_exact_small_partial`, `C32_column_refused`, `C32_type_erases_first_partial`, `C32_type_exact_partial`, `C32_type_leaves_others_refuted`, `C32_null_erases_text_refuted`
- C33: `C33_index_both_ways`, `C33_random_access`, `C33_postfix_refuted`, `C33_visits_every_field`, `C33_only_fields_partial`, `C33_compacted`, `C33_shows_holes_refuted`, `C33_all_fields_partial`, `C33_present_fields`, `C33_present_regions`, `C33_no_end_refuted`, `C33_first_place_refuted`, `C33_last_place_refuted`
- C34: `C34_untagged_partial`, `C34_untagged_wide_partial`, `C34_set_ptr_keeps_tag_partial`, `C34_set_ptr_keeps_tag_wide_partial`, `C34_parts`, `C34_tag_lost_refuted`, `C34_set_tag_refuted`
- C35: `C35_pollute_xors_range_only`, `C35_pollute_key_is_mask`, `C35_pollute_key_is_random`, `C35_words_differ`, `C35_pollute_twice_restores`, `C35_zero_test_exact`
- C36: `C36_multiplication_exact`, `C36_carry_addition_exact`, `C36_carry_chain_exact`, `C36_bswap_reverses_bytes`, `C36_bswap_involutive`, `C36_leading_zeros_exact`
- C37: `C37_unsigned_exact`, `C37_signed_partial`, `C37_most_negative_refuted`
- C38: `C38_nested_verbatim`, `C38_null_nested`, `C38_nested_header`
- C39: `C39_ordinary_use_partial`, `C39_collection_multiset_partial`, `C39_collection_refuted`
- C40: `C40_clear_partial`, `C40_clear_succeeds`, `C40_clear_refuted`
- C41: `C41_loose_presence`, `C41_preplaced_presence_inverted`, `C41_slot_presence_inverted`, `C41_presence_refuted`, `C41_erase_by_token_keeps`, `C41_erase_fixed_by_token_keeps`, `C41_erase_fixed_plain_keeps`, `C41_erase_reports_refuted`
- C42: `C42_is_zero_exact`, `C42_is_allones_exact`
- C43: `C43_chunks_never_overlap_partial`, `C43_chunk_location_partial`, `C43_returned_to_origin_partial`, `C43_last_chunk_reclaimed`, `C43_room_is_used_partial`, `C43_used_partial`, `C43_order_refuted`, `C43_bounds_check`, `C43_huge_request_refuted`
- C44: `C44_parts_kept`, `C44_local_kept`
- C45: `C45_update_absent`, `C45_update_present_partial`, `C45_upsert_partial`, `C45_column_refused`, `C45_upsert_nested_refuted`, `C45_insert_partial`, `C45_insert_zeros_dropped_refuted`
- C46: `C46_getters`, `C46_preplaced`, `C46_widening`, `C46_absent`
- C47: `C47_reference_resolves`, `C47_reference_refuted`, `C47_layout`, `C47_read_your_writes_partial`
- C48: `C48_empty_exact`, `C48_count_exact`
- C49: `C49_one_byte_noticed`, `C49_one_bit_noticed`, `C49_two_bytes_refuted`, `C49_guard_accepts_itself`, `C49_guard_detects`, `C49_drowned_guard_rejected`, `C49_blank_guard_rejected`, `C49_smudged_guard_rejected`, `C49_setup_ends`, `C49_signature_refuted`
- C50: `C50_least_fitting_class`
- C51: `C51_memcmp_conforms`, `C51_strcmp_conforms`, `C51_strncmp_conforms`, `C51_strlen_exact`, `C51_memcmp_inside`
- C52: `C52_dump_is_faithful`
- C53: `C53_low_bits_cleared`, `C53_choice`, `C53_step_refuted`
- C54: `C54_initial_values`, `C54_references_absent`, `C54_import_refuted`
- C55: `C55_count_by_mask`, `C55_count_by_type_partial`, `C55_lookup_by_mask`, `C55_lookup_by_type_partial`, `C55_count_by_function`, `C55_mask_of_type`, `C55_masks_disjoint_from_types`, `C55_any_is_filter`, `C55_column_overflow_refuted`, `C55_column_overflow_case`, `C55_null_finds_text_refuted`, `C55_dead_column_refuted`
- C56: `C56_nested`, `C56_property`, `C56_fixed_quarter_refuted`, `C56_inplaced_nothing_refuted`, `C56_text_shifted_refuted`, `C56_varbin_shifted_refuted`
- C57: `C57_cstr`, `C57_other_type_read_refuted`
- C58: `C58_lexicographic`, `C58_total_order`, `C58_absent`, `C58_opaque_partial`, `C58_opaque_unaligned_refuted`, `C58_fixed`
- C59: `C59_present_partial`, `C59_absent_unreported_refuted`, `C59_string_absent`
- C60: `C60_d2a_reads_back`, `C60_special`
- C61: `C61_accurate_not_nearest_refuted`, `C61_not_shortest_refuted`, `C61_digits_partial`
- C62: `C62_shodan_reads_back`, `C62_before_buffer_refuted`, `C62_stale_byte_refuted`, `C62_special`
- C63: `C63_counters`, `C63_all_given_back`, `C63_no_use_after_free`, `C63_throwing_changes_nothing`
- C64: `C64_isolated_partial`, `C64_sole_writer_partial`, `C64_nested_of_writer_refuted`, `C64_dangling_refuted`
- C65: `C65_new_variable`, `C65_clone_shared`, `C65_clone_modifiable`, `C65_assigned`, `C65_grown`, `C65_self_move_refuted`, `C65_self_move_rw`, `C65_terminate_refuted`, `C65_absent_nested`, `C65_clone_in_plain_throws`
- C66: `C66_kept_partial`, `C66_schema_not_checked_refuted`, `C66_validated_without_schema`, `C66_modes`, `C66_growth_forgets_holes_refuted`
- C67: `C67_still_valid_partial`, `C67_invalid_partial`, `C67_sort_answer`, `C67_take_weak_refuted`, `C67_same_fields_partial`
- C68: `C68_genus_numbers`, `C68_constants`, `C68_null`, `C68_inlay`, `C68_inlay_columns_refuted`, `C68_filters`, `C68_filter_of_type`, `C68_tags_round_trip`, `C68_column_not_checked_refuted`, `C68_predicates`, `C68_genus_names`, `C68_type_names`, `C68_invalid_names`, `C68_unnamed_refuted`, `C68_named_partial`, `C68_lge_names`, `C68_lge_incomparable`, `C68_names_tell_size`
- C69: `C69_nearest_nanosecond`, `C69_shape`, `C69_order`
- C70: `C70_guarded`, `C70_null_pointer`, `C70_returned`, `C70_codes_partial`, `C70_array_allocation_refuted`, `C70_cstr_stale_refuted`, `C70_cstr_absent`, `C70_text_partial`, `C70_no_memory_text_refuted`
- C71: `C71_missing`, `C71_removal_never_fails`, `C71_share`, `C71_new_buffer`, `C71_legacy_carried`
- C72: `C72_opened_partial`, `C72_edited_partial`, `C72_audited_partial`, `C72_written_are_proper_partial`, `C72_adjacent_holes_refuted`, `C72_lost_units_refuted`, `C72_overlaid_refuted`
- C73: `C73_check_answers`, `C73_two_calls`, `C73_size_or_error`, `C73_no_error_place`, `C73_walk`, `C73_get_buffer_size_refuted`, `C73_get_buffer_size_partial`, `C73_stale_counters_refuted`, `C73_built_passes`, `C73_refused`, `C73_fetch_nothing`, `C73_alloc`, `C73_make`
- C74: `C74_counts_partial`, `C74_payload`, `C74_junk_partial`, `C74_netto_refuted`, `C74_netto_partial`, `C74_read_partial`, `C74_is_empty_refuted`
- C75: `C75_convertible_iff_within_partial`, `C75_signed_to_unsigned_refuted`, `C75_bytes_refuted`, `C75_time_widens`, `C75_time_narrows_refuted`, `C75_other_types`, `C75_networks`, `C75_tables_agree`
- C76: `C76_copied_exactly_partial`, `C76_networks_refuted`, `C76_networks_padded`
- C77: `C77_no_stale_bytes`, `C77_values_are_valid`, `C77_loose_partial`, `C77_slot_partial`, `C77_empty_reads_empty`, `C77_what_is_empty`, `C77_minus_zero_refuted`, `C77_empty_nested_refuted`, `C77_odd_binary_refuted`
- C78: `C78_no_false_alarm`, `C78_base_balance`, `C78_release`, `C78_layout`, `C78_bytes_kept`, `C78_one_byte_noticed`, `C78_damage_noticed`, `C78_second_release_noticed`, `C78_guards_told_apart`, `C78_two_bytes_refuted`, `C78_limit`, `C78_limit_refuted`, `C78_aligned`, `C78_alignment_refuted`, `C78_buffers_aligned`
- C79: `C79_as_by_token`, `C79_next_call`, `C79_reads_last_write`, `C79_position_kept`, `C79_twins_refuted`, `C79_reused_entry_refuted`, `C79_remove_absent_refuted`, `C79_compaction_refuted`
- C80: `C80_sound`, `C80_complete`, `C80_safe`, `C80_keywords`, `C80_perfect`, `C80_eight_bits_refuted`, `C80_slice_refuted`
- C81: `C81_setters_and_getters`, `C81_insertions_partial`, `C81_no_confusion`, `C81_which_types`, `C81_any_getter_partial`, `C81_round_trip_partial`, `C81_dates`, `C81_across_names`, `C81_insert_partial`, `C81_second_dates_refuted`, `C81_wrong_type`, `C81_wrappers_partial`, `C81_wrappers_refuted`
- C82: `C82_new_partial`, `C82_new_exact`, `C82_extreme_schema_refuted`, `C82_extreme_room_refuted`, `C82_clone_exact`, `C82_clone_partial`, `C82_clone_overflow_refuted`, `C82_clone_extreme_refuted`, `C82_alike_exact`, `C82_alike`, `C82_alike_refuted`, `C82_open`
- C83: `C83_walk_meets_every_element`, `C83_acts_exact`, `C83_remove_if`, `C83_remove_by_reference_refuted`, `C83_reversed_range_refuted`, `C83_erase_range`, `C83_postfix_refuted`, `C83_any_calls`, `C83_erase_any_range`
- C84: `C84_same_field`, `C84_order`, `C84_order_of_places`, `C84_hash_perfect`, `C84_antisymmetry_refuted`, `C84_schema_order`, `C84_loose_iterator`, `C84_preplaced_iterator`, `C84_attributes_refuted`, `C84_own_token`, `C84_search`, `C84_oldest_refuted`, `C84_holes_have_no_token_refuted`
- C85: `C85_made`, `C85_checks_agree`, `C85_empty_refuted`, `C85_long_refuted`, `C85_apart`, `C85_payload_is_free`, `C85_one_byte_noticed`, `C85_fields_unguarded_refuted`, `C85_counted`, `C85_given_up`, `C85_shared_release_refuted`, `C85_local_release`, `C85_lent`, `C85_flags_lost_refuted`, `C85_no_allocator`, `C85_probes`, `C85_last_page_refuted`, `C85_prefault`, `C85_kinds`
- C86: `C86_other_field_partial`, `C86_lent_views`, `C86_copy_partial`, `C86_itself_refuted`, `C86_last_byte_lost`, `C86_nested_itself_refuted`, `C86_managed_roomy_partial`, `C86_released_exactly`, `C86_given_up`, `C86_unfit`, `C86_growth_refuted`, `C86_compaction_refuted`
- C87: `C87_refused_exactly`, `C87_refused_is_counted_refuted`, `C87_compaction_cuts_refuted`, `C87_next_value_overwrites_refuted`, `C87_managed_room_refuted`, `C87_managed_loses_refuted`, `C87_counted_late_partial`, `C87_counted_late_grown_partial`, `C87_erase_does_nothing_refuted`
- C88: `C88_made`, `C88_text`, `C88_overlong_refuted`, `C88_npos_refuted`, `C88_std_view_partial`, `C88_nil_lost_refuted`, `C88_string_partial`, `C88_string_nil_refuted`, `C88_compare_string`, `C88_order_refuted`, `C88_order_partial`, `C88_swap_exact`, `C88_swap_refuted`, `C88_swap_views`, `C88_thunk`, `C88_at`, `C88_ends`, `C88_walks`, `C88_no_null`, `C88_null_refuted`, `C88_difference`, `C88_difference_refuted`, `C88_max_size_refuted`
- C89: `C89_flags_partial`, `C89_rdrand_refuted`, `C89_rdrand_both_refuted`, `C89_numbers`, `C89_leaves`, `C89_leaves_exact`, `C89_read_something`, `C89_on_chip`, `C89_runs_partial`, `C89_traps_refuted`, `C89_too_early`, `C89_too_early_refuted`, `C89_same_answers`, `C89_resolver`
- C90: `C90_take`, `C90_take_silent`, `C90_survives_partial`, `C90_valid_partial`, `C90_size_refuted`, `C90_grown_refuted`, `C90_equal_refuted`, `C90_handles`, `C90_moved_refuted`, `C90_survives_any_calls`, `C90_valid_any_calls`, `C90_longer_value_refuted`
- C91: `C91_payload_stays`, `C91_views_stay`, `C91_references_stay`, `C91_set_shows`, `C91_same_size_shows`, `C91_store_reference`, `C91_references_fit`, `C91_zeros_fit`, `C91_managed_roomy`, `C91_given_up`, `C91_growth_refuted`, `C91_absent_refuted`, `C91_removed_refuted`, `C91_zeroed_refuted`, `C91_resized_refuted`, `C91_compacted_refuted`, `C91_managed_compaction_refuted`
- C92: `C92_narrow`, `C92_wide`, `C92_reference`, `C92_absent_reference`, `C92_two_wide_refuted`, `C92_two_numbers_refuted`, `C92_preplaced_narrow`, `C92_items_refuted`, `C92_schema_refuted`, `C92_border`, `C92_managed_refuted`, `C92_compacted_refuted`, `C92_serialised`, `C92_copied_refuted`, `C92_buffer_refuted`, `C92_accepted_refuted`, `C92_imported_refuted`, `C92_even_partial`
- C93: `C93_tokens_partial`, `C93_far_refuted`, `C93_members`, `C93_apart`, `C93_erase_refuted`, `C93_small_enum_refuted`, `C93_enum_getter`, `C93_plain_enum_partial`, `C93_wide_enum_refuted`, `C93_bool`, `C93_bool_refuted`, `C93_import`, `C93_import_refuted`, `C93_struct_size`, `C93_padding_partial`, `C93_padding_refuted`, `C93_reference_odd_refuted`, `C93_reference_partial`, `C93_neighbours_refuted`, `C93_documented_example_refuted`, `C93_value`, `C93_laid`, `C93_data_refuted`
- C94: `C94_exact_partial`, `C94_excess_partial`, `C94_enough_partial`, `C94_least`, `C94_wrap_refuted`, `C94_refused_refuted`, `C94_largest_refuted`, `C94_enough_with_holes`
- C95: `C95_integers_taken`, `C95_text_taken`, `C95_truth_taken`, `C95_untaken_refuted`, `C95_others_taken`, `C95_integers_partial`, `C95_cut_partial`, `C95_floats_partial`, `C95_others_partial`, `C95_chain`, `C95_chain_partial`, `C95_field_refuted`, `C95_characters_refuted`, `C95_truth_refuted`, `C95_chain_refuted`, `C95_growth_refuted`, `C95_widened_partial`, `C95_narrowed_partial`, `C95_vanishing_refuted`
- C96: `C96_fraction_exact`, `C96_seconds_nearest`, `C96_seconds_error`, `C96_seconds_exact`, `C96_seconds_order`, `C96_whole_second`, `C96_whole_second_refuted`, `C96_distinct_refuted`, `C96_operators`, `C96_order_transitive`, `C96_operators_seconds`, `C96_time_t`, `C96_time_t_refuted`
- C97: `C97_kinds`, `C97_same_field`, `C97_setters`, `C97_getters`, `C97_get_float`, `C97_decimal_refuted`, `C97_bool_refuted`

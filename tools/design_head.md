# Formal model of libfptu — design

## Method
The C++ sources in `/repo` are read as text and re-written, function by function, as
small total computable Gallina functions (`rocq/theories/*.v`).  Each definition
cites the file and the lines it models, and says where it simplifies.  Release (`NDEBUG`)
semantics is modelled: an `assert` is not a check.  Where an assert failure,
an out-of-range access or any other undefined behaviour is possible the model has a
distinct outcome (`Bad`, `None`, `Undefined`), so that no theorem can be true because the model
returned a harmless default.  Wrap-around of 16-, 32- and 64-bit numbers is explicit.

The library is work in progress at the pinned commit and several user-level
properties are *false* of the code.  For those the model is kept as it is and the
theorem is a `*_refuted` statement with a concrete reachable witness (or for all inputs of a class);
next to it stands the positive theorem for the part of the domain where the
code is right, with its hypotheses spelled out, and with the suffix `_partial` when part of the property is missing.
Where a defect is a one-token slip (e.g. a wrong variable), the model
function takes a `quirks` record; `asis` is the code as it stands and is what
all property theorems speak about; `repaired` is only used as a proof device and for
extra theorems that are explicitly about the repaired variant.

### Words used in the statements
- `reached multi s`: `s` arises from a freshly constructed tuple (any sizes, any preplaced fields) by a list
  of valid, *calm* calls, of any length; `multi` tells which descriptors the caller uses as collections.
- `worked multi s`: the same with compactions in between.
- *calm*: the call does not meet one of the four known slips of the allocator: cutting a new field out of
  a larger hole (gear.cxx:300), the exchange of payloads at the end of the data (gear.cxx:591), a hole
  wider than 2047 units (a hole keeps its size in 11 bits; the junk as a whole is not limited), a search for such a hole, and freeing a preplaced payload without a free index slot.  Each slip has its own refutation; `calm` is decidable and evaluated in the examples.
- `field s r`: descriptor and value of the loose entry or preplaced slot `r`; `view s d`: the values of all fields
  with descriptor `d` in the order of iteration; `fields_in_order s`: all loose fields.
- `TInv s`: the invariant of a tuple (cover count, counters, no adjacent holes, no hole at the tail).

## Layout of the development
| files | model |
|---|---|
| `Base.v` | wrap-around arithmetic, finite checks, tactics |
| `Tag.v`, `TagProofs.v` | `essentials.h`, `token.h`: tags and tokens |
| `Codec.v`, `CodecProofs.v` | `details/field.h`, `meta.h`: text, binary, property and nested payloads |
| `Gear.v`, `GearBase.v` … `GearAsis.v` | `gear.cxx`: the free-space manager |
| `GearOpt.v`, `GearOptProofs.v`, `GearSortProofs.v` | `gear.cxx`: compaction, sorting, optimize |
| `Tuple.v`, `TupleMore.v`, `TupleProofs.v` … `TupleFacts.v`, `TupleQuiet.v`, `TupleExact.v` | `rw.h`, `rw.cxx`, `getter.h`: set, insert, remove, get, reset, sizes |
| `Image.v`, `Audit.v` | `take_asis`, copying constructors, `audit.cxx` |
| `Scan.v` | `scan_*.cxx` |
| `Numeric.v` | range checks and conversions of `rw.h`, `rw.cxx`, `getter.h` |
| `Schema.v` | `schema.cxx`, `schema.h` |
| `Growth.v`, `GrowthProofs.v`, `PolicyProofs.v` | `autogrowth.cxx`, sizes of new tuples |
| `Iterators.v` | iterators of `ro.h`, `rw.h` |
| `Legacy.v` | `compat_*.cxx`, `legacy.h`: the C interface |
| `Hippeus.v` | `1Hippeus/*`: reference counting, buffer tags, guards, sizes, memory helpers |
| `Values.v` | `datetime.h`, `string_view.h`, comparison, string helpers |
| `Erthink.v`, `Arena.v` | arithmetic, formatting and the on-stack arena of erthink |
| `D2a.v`, `D2aProofs.v`, `D2aRound.v` | `erthink_d2a.h`: printing doubles |
| `Managed.v`, `ManagedProofs.v` | `managed.cxx`, `tuples.h`, `rw.cxx`: handles of tuples over counted buffers |
| `Text.v`, `TextProofs.v` | `legacy.h`, `legacy_compat.h`, `compat_common.cxx`, `misc.cxx`, `debug.cxx`: type constants, names, error codes, text of a date |
| `AcceptProofs.v` | from accepted bytes (`audit.cxx`) to the invariant of the writer (`rw.cxx`, `gear.cxx`) |
| `Facade.v` | `compat_ro.cxx`, `compat_rw.cxx`, `rw.h`: checking, sizing and opening through the C interface; counts and sizes |
| `Traits.v` | `meta.h`: table of trivially convertible types, writing and reading of values of fixed size |
| `Typed.v` | `meta.h`: reading, writing, emptiness and sizes of values of every type, and the 32-bit units they are kept in |
| `Guarded.v` | `hipagut_allocator.h`: gaps, limits, guards in memory, taking and releasing; histories over a base allocator |
| `Held.v` | `accessor_rw` as a token and a pointer to an entry; programs over variables that hold accessors |
| `Keywords.v` | `gperf_ECMAScript_keywords.h`: the hash, the pool and the comparison |
| `Named.v` | `rw.h`, `getter.h`, `rw.cxx`: the setters, getters and insertions named after types |
| `Scales.v` | `managed.cxx`, `tuples.h`: constructors and clones by named scales |
| `Walk.v` | `rw.h`, `rw.cxx`, `getter.h`, `scan.h`: iterators of collections, loops over them, erasing a range |
| `Tokens.v` | `token.h`, `ro.h`, `ro.cxx`, `getter.h`: comparing, ordering and hashing tokens; iterators and tokens |
| `Buffers.v` | `buffer.h`, `buffer.cxx`, `allot_stdcxx.cxx`, `utils.cxx`: headers of buffers in memory, checks, references, release, borrowing, probing of pages |
| `Alias.v` | `rw.h`, `meta.h`, `autogrowth.cxx`: setters given views into the tuple itself |
| `Removal.v` | `autogrowth.cxx`: removals from auto-growing tuples |
| `Views.v` | `string_view.h`, `misc.cxx`, `getter.h`: string views, their conversions, access and iteration |
| `Cpu.v` | `cpu_features.h`, `cpu_features_ia32.cxx`, `scan_ifunc.cxx`: processor features and the choice of the scan routine |
| `Stale.v` | `tuples.h`, `rw.h`, `rw.cxx`: views taken of a modifiable tuple, later changes of it, comparison of handles |
| `References.v` | `meta.h`, `rw.h`, `autogrowth.cxx`, `tablets.cxx`: getters that give references into the tuple, setters that take them |
| `Aligned.v` | `meta.h`, `getter.h`, `rw.h`, `types/*.h`: alignment of value types and the addresses of typed reads |
| `Native.v` | `token.h`, `type2genus.h`, `meta.h`: structures over the preplaced part and tokens of their members |
| `Wider.v` | `tuples.h`: the estimate of space from a modifiable tuple |
| `Assign.v` | `rw.h`, `string_view.h`: the assignment operators of accessors |
| `Seconds.v` | `datetime.h`: times as doubles, the operators of comparison, times of time_t |
| `SchemaMore.v` | `schema.cxx`: the throwing lookups by name and token, `define_field`, `define_collection` |
| `Kinds.v` | `token.h`, `essentials.h`: the predicates of a token on the kind of its values |
| `*Proofs.v` | lemmas about the model of the same name |
| `Properties*.v` | the property theorems with examples that meet their hypotheses, and `Print Assumptions` |

Key modelling decision for the allocator (`Gear.v`).  A modifiable tuple is a record with
the index (counted from the pivot outwards, so that the address of an entry never
changes while the head moves), the payload memory (`Z -> Z`, one 32-bit unit per
address), `pivot`, `tail`, `end` and the two 16-bit junk counters.  References are kept
relative and 16-bit exactly as in the code (payload = own address + offset).
The invariant is a *cover count*: every unit address between the start of the payload and
the tail is owned by exactly one live payload or hole, every other address by none.
Splitting, merging, trimming and moving are then pointwise arithmetic.

`tools/` holds the scripts that keep the generated files current: `claims.json` and `claim.py` (status per property),
`manifest.py` (writes `MANIFEST.json`), `how.json` with `design.py` (writes this file), and the mutation tools `mutate.py` (given edits),
`automut.py` (systematic small edits of every definition) and `log.py` (writes `seeded/LOG.jsonl`).


## Trusted base
- Coq 8.16.1 kernel, and `vm_compute` for the concrete witnesses (`coqchk` re-checks them without the virtual machine).
- No axioms.  All theorems are closed under the global context (list below).  `coqchk` lists seven names
  `Coq.ssr.ssrunder.Under_rel.*` of the standard library among the axioms of the loaded files; they are parameters of a module
  of ssreflect that `lia` and friends load, and no theorem rests on them.
- The reading of the C++ sources (every definition cites its source lines).
- Little-endian layout, 8-bit bytes, two's complement, `NDEBUG` build, `uint_fast32_t` of 64 bits.

## Not modelled
Machine code and compilers; exception unwinding other than the state left behind; `malloc`
failure; hardware memory ordering (atomic accesses are sequentially consistent); JSON and other files under `TODO/`;
the shortest printing of floating point numbers (`erthink_d2a.h`); debug memory poisoning.

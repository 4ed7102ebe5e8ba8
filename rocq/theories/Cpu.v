(** Detection of processor features and the choice of the scan routine
    (fast_positive/tuples/details/cpu_features.h:24-145, src/cpu_features_ia32.cxx:70-137, src/scan_ifunc.cxx:30-54). *)
From Coq Require Import ZArith List Bool.
From Verif Require Import Base Hippeus Scan.
Import ListNotations.
Open Scope Z_scope.

(** four 32-bit registers *)
Record regs := mkRegs { r_eax : Z; r_ebx : Z; r_ecx : Z; r_edx : Z }.
(** the instruction CPUID: leaf and subleaf to registers.  For leaves that a processor does not have the answer is
    anything (Intel's repeat another leaf). *)
Definition cpuid := Z -> Z -> regs.
(** a processor with the operating system that runs on it: CPUID and the register XCR0 that tells which vector
    registers the system saves *)
Record machine := mkMachine { ask : cpuid; xcr0 : Z }.

(** src: fast_positive/tuples/details/cpu_features.h:25-48 *)
Record features := mkFeatures {
  b_ebx : Z; b_ecx : Z; b_edx : Z;                (* basic *)
  e7_ebx : Z; e7_ecx : Z; e7_edx : Z;             (* extended_7 *)
  e81_ecx : Z; e81_edx : Z;                       (* extended_80000001 *)
  e87_ecx : Z; e87_edx : Z                        (* extended_80000007 *)
}.
(** src: src/cpu_features_ia32.cxx:70; also the state before the constructor runs, as the object is static *)
Definition cleared : features := mkFeatures 0 0 0 0 0 0 0 0 0 0.
(** src: cpu_features_ia32.cxx:78-87; [__get_cpuid_max] is EAX of the given leaf.
    The pairs of leaf and subleaf asked for are listed second. *)
Definition fetch_basic (c : cpuid) (f : features) : features * list (Z * Z) * bool :=
  let top := r_eax (c 0 0) in
  if top >=? 1 then
    let r := c 1 0 in
    let f := mkFeatures (r_ebx r) (r_ecx r) (r_edx r) (e7_ebx f) (e7_ecx f) (e7_edx f) (e81_ecx f) (e81_edx f) (e87_ecx f) (e87_edx f) in
    if top >=? 7 then
      let r := c 7 0 in
      (mkFeatures (b_ebx f) (b_ecx f) (b_edx f) (r_ebx r) (r_ecx r) (r_edx r) (e81_ecx f) (e81_edx f) (e87_ecx f) (e87_edx f), [(0, 0); (1, 0); (7, 0)], true)
    else (f, [(0, 0); (1, 0)], true)
  else (f, [(0, 0)], false).
(** src: cpu_features_ia32.cxx:88-96 *)
Definition fetch_extended (c : cpuid) (f : features) : features * list (Z * Z) * bool :=
  let top := r_eax (c 0x80000000 0) in
  if top >=? 0x80000001 then
    let r := c 0x80000001 0 in
    let f := mkFeatures (b_ebx f) (b_ecx f) (b_edx f) (e7_ebx f) (e7_ecx f) (e7_edx f) (r_ecx r) (r_edx r) (e87_ecx f) (e87_edx f) in
    if top >=? 0x80000007 then
      let r := c 0x80000007 0 in
      (mkFeatures (b_ebx f) (b_ecx f) (b_edx f) (e7_ebx f) (e7_ecx f) (e7_edx f) (e81_ecx f) (e81_edx f) (r_ecx r) (r_edx r),
       [(0x80000000, 0); (0x80000001, 0); (0x80000007, 0)], true)
    else (f, [(0x80000000, 0); (0x80000001, 0)], true)
  else (f, [(0x80000000, 0)], false).
(** src: cpu_features_ia32.cxx:72-137, cpu_features.h:52-54 *)
Definition fetch (c : cpuid) : features * list (Z * Z) * bool :=
  let '(f, l, ok) := fetch_basic c cleared in
  let '(f, l', ok') := fetch_extended c f in
  (f, l ++ l', ok || ok').

(** the questions; [flag] is [(register & (1 << bit)) != 0].  src: cpu_features.h:56-144 *)
Definition flag (r bit : Z) : bool := negb (Z.land r (Z.shiftl 1 bit) =? 0).
Definition clflush_size (f : features) : Z := u8 (Z.shiftr (b_ebx f) 8).
Definition apic_id (f : features) : Z := u8 (Z.shiftr (b_ebx f) 24).
Definition f_TSC f := flag (b_edx f) 4.
Definition f_CMPXCHG8 f := flag (b_edx f) 8.
Definition f_CLFLUSH f := flag (b_edx f) 19.
Definition f_SSE f := flag (b_edx f) 25.
Definition f_SSE2 f := flag (b_edx f) 26.
Definition f_SSE3 f := flag (b_ecx f) 0.
Definition f_PCLMULQDQ f := flag (b_ecx f) 1.
Definition f_SSSE3 f := flag (b_ecx f) 9.
Definition f_FMA f := flag (b_ecx f) 12.
Definition f_CMPXCHG16B f := flag (b_ecx f) 13.
Definition f_SSE41 f := flag (b_ecx f) 19.
Definition f_SSE42 f := flag (b_ecx f) 20.
Definition f_MOVBE f := flag (b_ecx f) 22.
Definition f_POPCNT f := flag (b_ecx f) 23.
Definition f_AES f := flag (b_ecx f) 25.
Definition f_AVX f := flag (b_ecx f) 28.
Definition f_RDRAND f := flag (b_ecx f) 31.
Definition f_BMI1 f := flag (e7_ebx f) 3.
Definition f_HLE f := flag (e7_ebx f) 4.
Definition f_AVX2 f := flag (e7_ebx f) 5.
Definition f_BMI2 f := flag (e7_ebx f) 8.
Definition f_RTM f := flag (e7_ebx f) 11.
Definition f_RDSEED f := flag (e7_ebx f) 18.
Definition f_ADX f := flag (e7_ebx f) 19.
Definition f_CLFLUSHOPT f := flag (e7_ebx f) 23.
Definition f_CLWB f := flag (e7_ebx f) 24.
Definition f_SHA f := flag (e7_ebx f) 29.
Definition f_VAES f := flag (e7_ecx f) 9.
Definition f_VPCLMULQDQ f := flag (e7_ecx f) 10.
Definition f_RDTSCP f := flag (e81_edx f) 27.
Definition f_ABM f := flag (e81_ecx f) 5.
Definition f_SSE4a f := flag (e81_ecx f) 6.
Definition f_MisalignSSE f := flag (e81_ecx f) 7.
Definition f_FMA4 f := flag (e81_ecx f) 16.
Definition f_TMB f := flag (e81_ecx f) 21.

(** the routines to choose from *)
Inductive routine := R_unroll | R_SSE2 | R_AVX | R_AVX2.
(** src: src/scan_ifunc.cxx:36-54, on ia32 and without the address sanitizer *)
Definition choose (f : features) : routine :=
  if f_AVX2 f then R_AVX2 else if f_AVX f then R_AVX else if f_SSE2 f then R_SSE2 else R_unroll.
(** The choice is made once, either by the dynamic linker while it resolves the indirect function or while static
    objects are constructed (erthink_ifunc.h:46-92): in both cases possibly before the constructor of [cpu_features]
    (cpu_features_ia32.cxx:26) has run.  src: scan_ifunc.cxx:30-33 *)
Definition chosen (constructed : bool) (m : machine) : routine :=
  choose (if constructed then fst (fst (fetch (ask m))) else cleared).
(** the routine of Scan.v *)
Definition routine_of (r : routine) : bmem -> Z -> Z -> Z -> option Z * trace :=
  match r with R_unroll => scan_unroll | R_SSE2 => scan_SSE2 | R_AVX => scan_AVX false | R_AVX2 => scan_AVX2 end.

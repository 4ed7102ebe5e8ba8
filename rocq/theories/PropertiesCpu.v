(** * Properties of the detection of processor features and of the choice of the scan routine *)
From Verif Require Import Base Hippeus HippeusProofs Scan ScanProofs PropertiesScan Cpu.
From Coq Require Import ZifyBool ZifyNat.
Ltac Zify.zify_post_hook ::= Z.div_mod_to_equations.

(** ** What the manuals say *)
Inductive register := EBX | ECX | EDX.
Definition reg (r : regs) (x : register) : Z := match x with EBX => r_ebx r | ECX => r_ecx r | EDX => r_edx r end.
(** a processor has the leaves up to the one it names in leaf 0, and the extended leaves up to the one it names in leaf 0x80000000 *)
Definition has_leaf (c : cpuid) (leaf : Z) : bool :=
  if leaf <? 0x80000000 then leaf <=? r_eax (c 0 0) else leaf <=? r_eax (c 0x80000000 0).
(** a feature is there when its leaf is and its bit in it is set *)
Definition told (c : cpuid) (leaf : Z) (x : register) (bit : Z) : bool := has_leaf c leaf && Z.testbit (reg (c leaf 0) x) bit.
Definition found (c : cpuid) : features := fst (fst (fetch c)).

Lemma flag_bit r b : 0 <= b -> flag r b = Z.testbit r b.
Proof.
  intros Hb. unfold flag. rewrite Z.shiftl_1_l. destruct (Z.testbit r b) eqn:E.
  - destruct (Z.eqb_spec (Z.land r (2 ^ b)) 0) as [Q|Q]; [|reflexivity]. exfalso.
    assert (T : Z.testbit (Z.land r (2 ^ b)) b = true) by (rewrite Z.land_spec, E, Z.pow2_bits_true by lia; reflexivity). rewrite Q, Z.bits_0 in T. discriminate.
  - destruct (Z.eqb_spec (Z.land r (2 ^ b)) 0) as [Q|Q]; [reflexivity|]. exfalso. apply Q. apply Z.bits_inj_0. intros i. rewrite Z.land_spec.
    destruct (Z.eq_dec b i) as [<-|N]; [rewrite E; reflexivity|]. rewrite (Z.pow2_bits_false b i N). apply andb_false_r.
Qed.
Lemma found_fields c : let f := found c in
  (b_ebx f = if has_leaf c 1 then r_ebx (c 1 0) else 0) /\ (b_ecx f = if has_leaf c 1 then r_ecx (c 1 0) else 0) /\
  (b_edx f = if has_leaf c 1 then r_edx (c 1 0) else 0) /\
  (e7_ebx f = if has_leaf c 7 then r_ebx (c 7 0) else 0) /\ (e7_ecx f = if has_leaf c 7 then r_ecx (c 7 0) else 0) /\
  (e7_edx f = if has_leaf c 7 then r_edx (c 7 0) else 0) /\
  (e81_ecx f = if has_leaf c 0x80000001 then r_ecx (c 0x80000001 0) else 0) /\ (e81_edx f = if has_leaf c 0x80000001 then r_edx (c 0x80000001 0) else 0) /\
  (e87_ecx f = if has_leaf c 0x80000007 then r_ecx (c 0x80000007 0) else 0) /\ (e87_edx f = if has_leaf c 0x80000007 then r_edx (c 0x80000007 0) else 0).
Proof.
  unfold found, fetch, fetch_basic, fetch_extended, has_leaf.
  change (1 <? 0x80000000) with true. change (7 <? 0x80000000) with true. change (0x80000001 <? 0x80000000) with false. change (0x80000007 <? 0x80000000) with false. cbv iota zeta.
  rewrite !Z.geb_leb. destruct (Z.leb_spec 1 (r_eax (c 0 0))), (Z.leb_spec 7 (r_eax (c 0 0))), (Z.leb_spec 0x80000001 (r_eax (c 0x80000000 0))), (Z.leb_spec 0x80000007 (r_eax (c 0x80000000 0))); try lia;
  cbn [fst snd b_ebx b_ecx b_edx e7_ebx e7_ecx e7_edx e81_ecx e81_edx e87_ecx e87_edx cleared]; repeat split; reflexivity.
Qed.
Lemma told_if c leaf x b : 0 <= b -> flag (if has_leaf c leaf then reg (c leaf 0) x else 0) b = told c leaf x b.
Proof. intros H. rewrite flag_bit by exact H. unfold told. destruct (has_leaf c leaf); [reflexivity|]. rewrite Z.bits_0. reflexivity. Qed.

(** every question but one is answered as the manuals define it *)
Theorem C89_flags_partial : forall c, let f := found c in
  f_TSC f = told c 1 EDX 4 /\ f_CMPXCHG8 f = told c 1 EDX 8 /\ f_CLFLUSH f = told c 1 EDX 19 /\ f_SSE f = told c 1 EDX 25 /\ f_SSE2 f = told c 1 EDX 26 /\
  f_SSE3 f = told c 1 ECX 0 /\ f_PCLMULQDQ f = told c 1 ECX 1 /\ f_SSSE3 f = told c 1 ECX 9 /\ f_FMA f = told c 1 ECX 12 /\ f_CMPXCHG16B f = told c 1 ECX 13 /\
  f_SSE41 f = told c 1 ECX 19 /\ f_SSE42 f = told c 1 ECX 20 /\ f_MOVBE f = told c 1 ECX 22 /\ f_POPCNT f = told c 1 ECX 23 /\ f_AES f = told c 1 ECX 25 /\
  f_AVX f = told c 1 ECX 28 /\
  f_BMI1 f = told c 7 EBX 3 /\ f_HLE f = told c 7 EBX 4 /\ f_AVX2 f = told c 7 EBX 5 /\ f_BMI2 f = told c 7 EBX 8 /\ f_RTM f = told c 7 EBX 11 /\
  f_RDSEED f = told c 7 EBX 18 /\ f_ADX f = told c 7 EBX 19 /\ f_CLFLUSHOPT f = told c 7 EBX 23 /\ f_CLWB f = told c 7 EBX 24 /\ f_SHA f = told c 7 EBX 29 /\
  f_VAES f = told c 7 ECX 9 /\ f_VPCLMULQDQ f = told c 7 ECX 10 /\
  f_RDTSCP f = told c 0x80000001 EDX 27 /\ f_ABM f = told c 0x80000001 ECX 5 /\ f_SSE4a f = told c 0x80000001 ECX 6 /\ f_MisalignSSE f = told c 0x80000001 ECX 7 /\
  f_FMA4 f = told c 0x80000001 ECX 16 /\ f_TMB f = told c 0x80000001 ECX 21.
Proof.
  intros c f. subst f. destruct (found_fields c) as (_ & A2 & A3 & B1 & B2 & _ & C1 & C2 & _ & _).
  unfold f_TSC, f_CMPXCHG8, f_CLFLUSH, f_SSE, f_SSE2, f_SSE3, f_PCLMULQDQ, f_SSSE3, f_FMA, f_CMPXCHG16B, f_SSE41, f_SSE42, f_MOVBE, f_POPCNT, f_AES, f_AVX,
    f_BMI1, f_HLE, f_AVX2, f_BMI2, f_RTM, f_RDSEED, f_ADX, f_CLFLUSHOPT, f_CLWB, f_SHA, f_VAES, f_VPCLMULQDQ, f_RDTSCP, f_ABM, f_SSE4a, f_MisalignSSE, f_FMA4, f_TMB.
  rewrite A2, A3, B1, B2, C1, C2.
  repeat match goal with |- _ /\ _ => split end; first [apply (told_if c _ EDX); lia|apply (told_if c _ ECX); lia|apply (told_if c _ EBX); lia].
Qed.
(** RDRAND is bit 30; the question about it looks at bit 31, which tells a virtual machine from a real one *)
Theorem C89_rdrand_refuted : forall c, f_RDRAND (found c) = told c 1 ECX 31.
Proof. intros c. unfold f_RDRAND. destruct (found_fields c) as (_ & A2 & _). rewrite A2. apply (told_if c 1 ECX). lia. Qed.
(** two processors, for instance: without RDRAND under a hypervisor, and with it on the bare metal *)
Definition of_bits (l1c l1d l7b : Z) : cpuid := fun leaf _ =>
  if leaf =? 0 then mkRegs 7 0 0 0 else if leaf =? 1 then mkRegs 0 0 l1c l1d else if leaf =? 7 then mkRegs 0 l7b 0 0 else mkRegs 0 0 0 0.
Theorem C89_rdrand_both_refuted :
  (let c := of_bits (2 ^ 31) 0 0 in f_RDRAND (found c) = true /\ told c 1 ECX 30 = false) /\
  (let c := of_bits (2 ^ 30) 0 0 in f_RDRAND (found c) = false /\ told c 1 ECX 30 = true).
Proof. vm_compute. repeat split; reflexivity. Qed.
(** the numbers in EBX of leaf 1: bits 8 to 15 and 24 to 31 *)
Theorem C89_numbers : forall c, has_leaf c 1 = true ->
  clflush_size (found c) = r_ebx (c 1 0) / 256 mod 256 /\ apic_id (found c) = r_ebx (c 1 0) / 16777216 mod 256.
Proof.
  intros c H. unfold clflush_size, apic_id, u8. destruct (found_fields c) as (A1 & _). rewrite A1, H, !Z.shiftr_div_pow2 by lia. split; reflexivity.
Qed.
(** only leaves that exist are asked for, besides the two that tell which do; and the answer tells whether any was read *)
Theorem C89_leaves : forall c leaf sub, In (leaf, sub) (snd (fst (fetch c))) ->
  sub = 0 /\ (leaf = 0 \/ leaf = 0x80000000 \/ has_leaf c leaf = true).
Proof.
  intros c leaf sub. unfold fetch, fetch_basic, fetch_extended. cbv zeta. rewrite !Z.geb_leb. unfold has_leaf.
  destruct (Z.leb_spec 1 (r_eax (c 0 0))), (Z.leb_spec 7 (r_eax (c 0 0))), (Z.leb_spec 0x80000001 (r_eax (c 0x80000000 0))), (Z.leb_spec 0x80000007 (r_eax (c 0x80000000 0)));
  cbn [fst snd app In]; intros I;
  repeat (destruct I as [I|I]; [assert (leaf = fst (leaf, sub)) by reflexivity; assert (sub = snd (leaf, sub)) by reflexivity; rewrite <- I in *; cbn [fst snd] in *; subst; split; [reflexivity|]; first [left; reflexivity|right; left; reflexivity|right; right; cbn; lia]|]); contradiction.
Qed.
(** and of the leaves that exist, all that hold features the library knows *)
Theorem C89_leaves_exact : forall c leaf, In (leaf, 0) (snd (fst (fetch c))) <->
  In leaf [0; 0x80000000] \/ In leaf [1; 7; 0x80000001; 0x80000007] /\ has_leaf c leaf = true.
Proof.
  intros c leaf. unfold fetch, fetch_basic, fetch_extended. cbv zeta. rewrite !Z.geb_leb. unfold has_leaf.
  assert (E : forall a, (a, 0) = (leaf, 0) <-> a = leaf) by (intros a; split; congruence).
  destruct (Z.leb_spec 1 (r_eax (c 0 0))), (Z.leb_spec 7 (r_eax (c 0 0))), (Z.leb_spec 0x80000001 (r_eax (c 0x80000000 0))), (Z.leb_spec 0x80000007 (r_eax (c 0x80000000 0)));
    try lia; cbn [fst snd app In]; rewrite !E; destruct (Z.ltb_spec leaf 0x80000000); split; intros X; lia.
Qed.
Theorem C89_read_something : forall c, snd (fetch c) = has_leaf c 1 || has_leaf c 0x80000001.
Proof.
  intros c. unfold fetch, fetch_basic, fetch_extended, has_leaf. change (1 <? 0x80000000) with true. change (0x80000001 <? 0x80000000) with false. cbv zeta iota. rewrite !Z.geb_leb.
  destruct (Z.leb_spec 1 (r_eax (c 0 0))), (Z.leb_spec 7 (r_eax (c 0 0))), (Z.leb_spec 0x80000001 (r_eax (c 0x80000000 0))), (Z.leb_spec 0x80000007 (r_eax (c 0x80000000 0))); reflexivity.
Qed.

(** ** The choice *)
(** what a routine needs of the processor, *)
Definition on_chip (c : cpuid) (r : routine) : Prop :=
  match r with R_unroll => True | R_SSE2 => told c 1 EDX 26 = true | R_AVX => told c 1 ECX 28 = true
             | R_AVX2 => told c 1 ECX 28 = true /\ told c 7 EBX 5 = true end.
(** and of the system: AVX instructions trap unless OSXSAVE is set and XCR0 has the bits of the SSE and AVX registers *)
Definition runs (m : machine) (r : routine) : Prop :=
  on_chip (ask m) r /\
  match r with R_unroll | R_SSE2 => True | R_AVX | R_AVX2 => told (ask m) 1 ECX 27 = true /\ Z.testbit (xcr0 m) 1 = true /\ Z.testbit (xcr0 m) 2 = true end.
(** all processors with AVX2 have AVX, and systems that save the registers say so *)
Definition sane (m : machine) : Prop := told (ask m) 7 EBX 5 = true -> told (ask m) 1 ECX 28 = true.
Definition saves (m : machine) : Prop :=
  told (ask m) 1 ECX 28 = true -> told (ask m) 1 ECX 27 = true /\ Z.testbit (xcr0 m) 1 = true /\ Z.testbit (xcr0 m) 2 = true.

Lemma choose_cases m : chosen true m =
  if told (ask m) 7 EBX 5 then R_AVX2 else if told (ask m) 1 ECX 28 then R_AVX else if told (ask m) 1 EDX 26 then R_SSE2 else R_unroll.
Proof.
  unfold chosen, choose. fold (found (ask m)).
  destruct (C89_flags_partial (ask m)) as (_ & _ & _ & _ & S2 & _ & _ & _ & _ & _ & _ & _ & _ & _ & _ & A & _ & _ & A2 & _).
  rewrite S2, A, A2. reflexivity.
Qed.
(** the processor has what the chosen routine needs, and has nothing that a faster one needs *)
Theorem C89_on_chip : forall m k, sane m ->
  on_chip (ask m) (chosen k m) /\
  (k = true -> (chosen k m <> R_AVX2 -> ~ on_chip (ask m) R_AVX2) /\ (chosen k m = R_SSE2 \/ chosen k m = R_unroll -> ~ on_chip (ask m) R_AVX) /\
               (chosen k m = R_unroll -> ~ on_chip (ask m) R_SSE2)).
Proof.
  intros m k Hs. destruct k; [|split; [exact I|discriminate]]. rewrite choose_cases. unfold sane in Hs. unfold on_chip.
  destruct (told (ask m) 7 EBX 5), (told (ask m) 1 ECX 28), (told (ask m) 1 EDX 26); try (specialize (Hs eq_refl); discriminate);
  (split; [auto|]); intros _; repeat split; try congruence; intuition congruence.
Qed.
(** where the system saves the vector registers, the chosen routine runs *)
Theorem C89_runs_partial : forall m k, sane m -> saves m -> runs m (chosen k m).
Proof.
  intros m k Hs Hv. destruct (C89_on_chip m k Hs) as [O _]. split; [exact O|]. unfold saves in Hv.
  destruct (chosen k m); [exact I|exact I|apply Hv; exact O|apply Hv; apply O].
Qed.
(** where it does not, a routine is chosen that traps, although others run *)
Theorem C89_traps_refuted : forall m, sane m -> told (ask m) 1 ECX 28 = true ->
  (told (ask m) 1 ECX 27 = false \/ Z.testbit (xcr0 m) 1 = false \/ Z.testbit (xcr0 m) 2 = false) ->
  ~ runs m (chosen true m) /\ runs m R_unroll /\ (told (ask m) 1 EDX 26 = true -> runs m R_SSE2).
Proof.
  intros m Hs A N. split.
  - rewrite choose_cases. rewrite A. destruct (told (ask m) 7 EBX 5); intros [_ (X & Y & Z)]; destruct N as [N|[N|N]]; congruence.
  - split; [split; exact I|]. intros S2. split; [exact S2|exact I].
Qed.
(** chosen before the features are known, the routine is the plain one: it runs everywhere, but no better one is ever used *)
Theorem C89_too_early : forall m, chosen false m = R_unroll /\ runs m (chosen false m).
Proof. intros m. split; [reflexivity|]. split; exact I. Qed.
Theorem C89_too_early_refuted : exists m, sane m /\ saves m /\ runs m R_AVX2 /\ chosen true m = R_AVX2 /\ chosen false m = R_unroll.
Proof.
  exists (mkMachine (of_bits (2 ^ 28 + 2 ^ 27) (2 ^ 26) (2 ^ 5)) 7). unfold sane, saves, runs, on_chip. vm_compute. repeat split; reflexivity.
Qed.
(** whatever is chosen and whenever, lookups give the same answers *)
Theorem C89_same_answers : forall m k begin e tag mem, bytes_mem mem -> 0 <= tag < 65536 -> (e - begin) mod 4 = 0 ->
  first_entry mem begin e tag (fst (routine_of (chosen k m) mem begin e tag)).
Proof.
  intros m k begin e tag mem Hm Ht M. destruct (chosen k m); cbn [routine_of];
    [apply C16_unroll|apply C16_SSE2|apply C16_AVX|apply C16_AVX2]; assumption.
Qed.
(** the choice is the one of C16 and C17 *)
Theorem C89_resolver : forall m k, routine_of (chosen k m) =
  let f := if k then found (ask m) else cleared in resolve (mkCpu (f_SSE2 f) (f_AVX f) (f_AVX2 f)) false.
Proof.
  intros m k. unfold chosen, choose, resolve. destruct k; cbv zeta; fold (found (ask m)); cbn [has_sse2 has_avx has_avx2];
  [destruct (f_AVX2 (found (ask m))), (f_AVX (found (ask m))), (f_SSE2 (found (ask m)))|]; reflexivity.
Qed.
Example C89_case : let m := mkMachine (of_bits (2 ^ 28) (2 ^ 26) 0) 0 in
  sane m /\ chosen true m = R_AVX /\ ~ runs m R_AVX /\ runs m R_SSE2.
Proof. unfold sane, runs, on_chip. vm_compute. repeat split; try reflexivity; try congruence. intros [_ [X _]]. discriminate X. Qed.

Print Assumptions C89_flags_partial. Print Assumptions C89_rdrand_refuted. Print Assumptions C89_rdrand_both_refuted. Print Assumptions C89_numbers.
Print Assumptions C89_leaves. Print Assumptions C89_leaves_exact.
Print Assumptions C89_read_something. Print Assumptions C89_on_chip. Print Assumptions C89_runs_partial.
Print Assumptions C89_traps_refuted. Print Assumptions C89_too_early. Print Assumptions C89_too_early_refuted. Print Assumptions C89_same_answers.
Print Assumptions C89_resolver.

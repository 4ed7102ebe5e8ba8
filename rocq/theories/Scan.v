(** * Index scan: the search of a tuple's index for a tag

    Models src/scan_portable.cxx, src/scan_SSE2.cxx, src/scan_AVX.cxx, src/scan_AVX2.cxx and
    src/scan_ifunc.cxx.

    The index is an array of [field_loose], four bytes each: a relative offset (bytes 0-1) and the
    tag [genus_and_id] (bytes 2-3), fast_positive/tuples/details/field.h:409-456.  Memory is a
    total map from addresses to bytes, little-endian.  Every function returns, beside its answer
    (the address of the entry, or [None] for [nullptr]), the list of the memory ranges it has read
    in the form (address, length), in order.  The switch-with-fallthrough loops are written as
    bounded repetition of the step macros. *)
From Verif Require Import Base Hippeus.

Definition trace := list (Z * Z).
(** little-endian 16-bit load *)
Definition half (m : bmem) (a : Z) : Z := m a + 256 * m (a + 1).
(** [scan->genus_and_id]: details/field.h:409-456, at byte 2 of the entry *)
Definition tag_at (m : bmem) (a : Z) : Z := half m (a + 2).

(** fptu_scan_referential: scan_portable.cxx:31-38.  The fuel is the number of entries. *)
Fixpoint referential_loop (fuel : nat) (m : bmem) (tag scan end_ : Z) : option Z * trace :=
  match fuel with
  | O => (None, [])
  | S f => if scan <? end_ then
             if tag =? tag_at m scan then (Some scan, [(scan + 2, 2)])
             else let (r, t) := referential_loop f m tag (scan + 4) end_ in (r, (scan + 2, 2) :: t)
           else (None, [])
  end.
Definition scan_referential (m : bmem) (begin end_ tag : Z) : option Z * trace :=
  referential_loop (S (Z.to_nat ((end_ - begin) / 4))) m tag begin end_.

(** A step macro: STEP_x1 scan_portable.cxx:44-49, STEP_x4 scan_SSE2.cxx:75-83, STEP_x8
    scan_AVX.cxx:68-75 and scan_AVX2.cxx:70-77, repeated [n] times: either it leaves the function with
    an entry or it advances [scan] by its width in bytes. *)
Fixpoint run_steps (step : Z -> option Z * trace) (stride : Z) (n : nat) (scan : Z) : option Z * Z * trace :=
  match n with
  | O => (None, scan, [])
  | S k => match step scan with
           | (Some p, t) => (Some p, scan, t)
           | (None, t) => let '(r, s, t') := run_steps step stride k (scan + stride) in (r, s, t ++ t')
           end
  end.
(** the do-while of eight steps under [default:]; [lim] is the bound of its condition.
    The fuel is the greatest possible number of rounds. *)
Fixpoint run_blocks (fuel : nat) (step : Z -> option Z * trace) (stride scan lim : Z) : option Z * Z * trace :=
  match fuel with
  | O => (None, scan, [])
  | S f => match run_steps step stride 8 scan with
           | (Some p, s, t) => (Some p, s, t)
           | (None, s, t) => if s <? lim then let '(r, s', t') := run_blocks f step stride s lim in (r, s', t ++ t')
                             else (None, s, t)
           end
  end.

(** STEP_x1: scan_portable.cxx:44-49 *)
Definition step1 (m : bmem) (tag scan : Z) : option Z * trace :=
  (if tag =? tag_at m scan then Some scan else None, [(scan + 2, 2)]).
(** fptu_scan_unroll: scan_portable.cxx:51-103.  After the [default:] rounds [items &= 7] is at most
    7, so the outer [while(1)] goes round once more at most. *)
Definition scan_unroll (m : bmem) (begin end_ tag : Z) : option Z * trace :=
  let items := (end_ - begin) / 4 in
  let step := step1 m tag in
  if items <? 0 then (None, [])
  else if items <=? 8 then let '(r, _, t) := run_steps step 4 (Z.to_nat items) begin in (r, t)
  else match run_blocks (Z.to_nat items) step 4 begin (end_ - 7 * 4) with
       | (Some p, _, t) => (Some p, t)
       | (None, s, t) => let '(r, _, t') := run_steps step 4 (Z.to_nat (Z.land items 7)) s in (r, t ++ t')
       end.

(** count of trailing zeros below bit [n], used by [mask2ptr] *)
Fixpoint ctz (n : nat) (mask i : Z) : Z :=
  match n with O => i | S k => if Z.testbit mask i then i else ctz k mask (i + 1) end.

(** _mm_movemask_epi8(_mm_cmpeq_epi16(set1(pat), load(a))): two bits for each of [lanes] 16-bit lanes.
    scan_SSE2.cxx:40-44 with 8 lanes, scan_AVX2.cxx:35-39 with 16 lanes *)
Fixpoint movemask16 (lanes : nat) (m : bmem) (a pat : Z) : Z :=
  match lanes with
  | O => 0
  | S k => movemask16 k m a pat + (if half m (a + 2 * Z.of_nat k) =? pat then 3 * 4 ^ Z.of_nat k else 0)
  end.
(** mask2ptr of SSE2 and AVX2: scan_SSE2.cxx:60-73, scan_AVX2.cxx:55-68: the bit index minus two is
    the byte offset of the entry *)
Definition mask2ptr16 (mask ptr : Z) : option Z :=
  if mask =? 0 then None else Some (ptr + ctz 32 mask 0 - 2).
(** 0x4444 for [w] = 4 entries, 0x44444444 for 8 *)
Definition pick (w : Z) : Z := if w =? 4 then 0x4444 else 0x44444444.

(** equality of two single-precision numbers given by their bits, _CMP_EQ_OQ, under MXCSR.DAZ = [daz]:
    NaN is unequal to everything, the two zeros are equal, with DAZ a denormal is a zero. *)
Definition f_abs (x : Z) : Z := x mod 2 ^ 31.
Definition f_nan (x : Z) : bool := 0x7f800000 <? f_abs x.
Definition f_flush (daz : bool) (x : Z) : Z := if daz && (f_abs x <? 2 ^ 23) then 0 else x.
Definition f_eq (daz : bool) (x y : Z) : bool :=
  let x := f_flush daz x in let y := f_flush daz y in
  negb (f_nan x) && negb (f_nan y) && ((x =? y) || ((f_abs x =? 0) && (f_abs y =? 0))).
(** cmp2mask of AVX: scan_AVX.cxx:43-52: eight 32-bit lanes loaded from [scan + 2], low halves kept,
    compared as floats; one bit for each lane *)
Fixpoint movemask_ps (daz : bool) (lanes : nat) (m : bmem) (p pat : Z) : Z :=
  match lanes with
  | O => 0
  | S k => movemask_ps daz k m p pat +
           (if f_eq daz pat (Z.land 0xffff (word_at_n 4 m (p + 4 * Z.of_nat k))) then 2 ^ Z.of_nat k else 0)
  end.
(** mask2ptr of AVX: scan_AVX.cxx:54-66 *)
Definition mask2ptr_ps (mask ptr : Z) : option Z :=
  if mask =? 0 then None else Some (ptr + 4 * ctz 8 mask 0).

(** The common text of fptu_scan_SSE2 (scan_SSE2.cxx:85-163), fptu_scan_AVX (scan_AVX.cxx:77-162) and
    fptu_scan_AVX2 (scan_AVX2.cxx:79-157) after the short case, with [w] entries for each step:
    w = 4 gives the constants 15, 31, 127 and 4; w = 8 gives 31, 63, 255 and 5.  [chunks] is at most 8
    after the [default:] rounds.  [scan = end - w] before the last step. *)
Definition wide_tail (step : Z -> option Z * trace) (w end_ chunks scan : Z) : option Z * trace :=
  if chunks =? 0 then (None, [])
  else match run_steps step (4 * w) (Z.to_nat (chunks - 1)) scan with
       | (Some p, _, t) => (Some p, t)
       | (None, _, t) => let (r, t') := step (end_ - 4 * w) in (r, t ++ t')
       end.
Definition wide_scan (step : Z -> option Z * trace) (w lg begin end_ : Z) : option Z * trace :=
  let bytes := end_ - begin in
  let chunks := Z.shiftr (bytes + (4 * w - 1)) lg in
  if chunks <=? 8 then wide_tail step w end_ chunks begin
  else match run_blocks (Z.to_nat chunks) step (4 * w) begin (end_ - 4 * (8 * w - 1)) with
       | (Some p, _, t) => (Some p, t)
       | (None, s, t) => let (r, t') := wide_tail step w end_ (Z.shiftr (Z.land bytes (32 * w - 1) + (4 * w - 1)) lg) s in
                         (r, t ++ t')
       end.

(** SSE2 and AVX2: one step and the short case.  scan_SSE2.cxx:75-83,94-113 ([w] = 4, page test
    0xff0), scan_AVX2.cxx:70-77,88-107 ([w] = 8, page test 0xfe0) *)
Definition step_int (w : Z) (m : bmem) (tag scan : Z) : option Z * trace :=
  (mask2ptr16 (Z.land (pick w) (movemask16 (Z.to_nat (2 * w)) m scan tag)) scan, [(scan, 4 * w)]).
Definition page_test (w : Z) : Z := if w =? 4 then 0xff0 else 0xfe0.
Definition short_int (w : Z) (m : bmem) (tag begin end_ : Z) : option Z * trace :=
  let bytes := end_ - begin in
  if bytes <? 4 then (None, [])
  else if negb (Z.land (page_test w) begin =? 0)
       then (mask2ptr16 (Z.shiftr (Z.land (pick w) (movemask16 (Z.to_nat (2 * w)) m (end_ - 4 * w) tag)) (4 * w - bytes)) begin,
             [(end_ - 4 * w, 4 * w)])
       else (mask2ptr16 (Z.land (Z.shiftr (pick w) (4 * w - bytes)) (movemask16 (Z.to_nat (2 * w)) m begin tag)) begin,
             [(begin, 4 * w)]).
Definition scan_int (w lg : Z) (m : bmem) (begin end_ tag : Z) : option Z * trace :=
  if end_ - begin <? 4 * w then short_int w m tag begin end_ else wide_scan (step_int w m tag) w lg begin end_.
Definition scan_SSE2 := scan_int 4 4.
Definition scan_AVX2 := scan_int 8 5.

(** AVX: scan_AVX.cxx:68-75,93-112 *)
Definition step_ps (daz : bool) (m : bmem) (tag scan : Z) : option Z * trace :=
  (mask2ptr_ps (movemask_ps daz 8 m (scan + 2) tag) scan, [(scan + 2, 32)]).
Definition short_ps (daz : bool) (m : bmem) (tag begin end_ : Z) : option Z * trace :=
  let bytes := end_ - begin in
  if bytes <? 4 then (None, [])
  else if negb (Z.land 0xfe0 begin =? 0)
       then (mask2ptr_ps (Z.shiftr (movemask_ps daz 8 m (end_ - 32 + 2) tag) (8 - bytes / 4)) begin,
             [(end_ - 32 + 2, 32)])
       else (mask2ptr_ps (Z.land (Z.shiftr 255 (8 - bytes / 4)) (movemask_ps daz 8 m (begin + 2) tag)) begin,
             [(begin + 2, 32)]).
Definition scan_AVX (daz : bool) (m : bmem) (begin end_ tag : Z) : option Z * trace :=
  if end_ - begin <? 32 then short_ps daz m tag begin end_ else wide_scan (step_ps daz m tag) 8 5 begin end_.

(** fptu_scan_resolver: scan_ifunc.cxx:37-54, on ia32 and without the address sanitizer *)
Record cpu := mkCpu { has_sse2 : bool; has_avx : bool; has_avx2 : bool }.
Definition resolve (c : cpu) (daz : bool) : bmem -> Z -> Z -> Z -> option Z * trace :=
  if has_avx2 c then scan_AVX2 else if has_avx c then scan_AVX daz
  else if has_sse2 c then scan_SSE2 else scan_unroll.
(** details/scan.h:82-90 [lookup] and 92-98 [next]: the scan from the start of the index, and from the
    entry after the given one *)
Definition lookup (scan : bmem -> Z -> Z -> Z -> option Z * trace) m begin end_ tag := scan m begin end_ tag.
Definition next (scan : bmem -> Z -> Z -> Z -> option Z * trace) m (cur : option Z) end_ tag : option Z * trace :=
  match cur with Some c => scan m (c + 4) end_ tag | None => (None, []) end.

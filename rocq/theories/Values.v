(** * Values: time, comparison, string views, string helpers (model). *)
From Verif Require Import Base Hippeus.

(** ** Time, 32.32 fixed point *)
(** [uint_fast32_t] is 64 bits wide on the modelled platform.
    src: fast_positive/tuples/types/datetime.h:115-119 *)
Definition units2fractional (value factor : Z) : Z := u64 (Z.shiftl value 32) / factor.
(** src: datetime.h:121-124 *)
Definition scale_in (value factor : Z) : Z :=
  Z.lor (u64 (Z.shiftl (value / factor) 32)) (units2fractional (value mod factor) factor).
(** src: datetime.h:126-130 *)
Definition fractional2units (value factor : Z) : Z := Z.shiftr (u64 (value * factor)) 32.
(** the two halves of the union, little endian.  src: datetime.h:52-63, 167-168 *)
Definition utc_seconds (t : Z) : Z := u32 (Z.shiftr t 32).
Definition fractional (t : Z) : Z := u32 t.
(** src: datetime.h:108-113 *)
Definition ns_per_second : Z := 1000000000.
Definition us_per_second : Z := 1000000.
Definition ms_per_second : Z := 1000.
Definition ns100_per_second : Z := ns_per_second / 100.
Definition Gregorian_UTC_offset_100ns : Z := 116444736000000000.
(** src: datetime.h:189-210; [unsigned] seconds, [uint64_t] units *)
Definition from_seconds (utc : Z) : Z := u64 (Z.shiftl utc 32).
Definition from_milliseconds (ms : Z) : Z := scale_in ms ms_per_second.
Definition from_usec (us : Z) : Z := scale_in us us_per_second.
Definition from_nsec (ns : Z) : Z := scale_in ns ns_per_second.
Definition from_100ns (ns100 : Z) : Z := scale_in ns100 ns100_per_second.
(** src: datetime.h:144-161 *)
Definition fractional2ms (x : Z) : Z := fractional2units x ms_per_second.
Definition fractional2us (x : Z) : Z := fractional2units x us_per_second.
Definition fractional2ns (x : Z) : Z := fractional2units x ns_per_second.
(** src: datetime.h:219-221; [nsec] is a [long] converted to uint_fast32_t, [sec] a time_t *)
Definition from_timespec (sec nsec : Z) : Z := Z.lor (u64 (Z.shiftl sec 32)) (units2fractional nsec ns_per_second).
(** src: datetime.h:230-232 *)
Definition from_timeval (sec usec : Z) : Z := Z.lor (u64 (Z.shiftl sec 32)) (units2fractional usec us_per_second).
(** src: datetime.h:133-137, 240-241 *)
Definition from_filetime (high low : Z) : Z :=
  scale_in (u64 (Z.lor (u64 (Z.shiftl high 32)) low - Gregorian_UTC_offset_100ns)) ns100_per_second.
(** The mask and the grain of [fptu_now]; [grain_ns] is an int.
    src: src/time.cxx:99-111 *)
Definition now_mask (grain_ns : Z) : Z :=
  if grain_ns <? 0 then (if grain_ns >? -32 then u64 (Z.shiftl 0xffffFFFF (- grain_ns)) else 0) else 0xffffFFFF.
Definition now_grain (grain_ns : Z) : Z :=
  if grain_ns <? 0 then (if grain_ns >? -32 then u32 (Z.shiftl 1 (- grain_ns)) else 2 ^ 64 - 1) else u32 grain_ns.
(** The resolution kept for the coarse clock; [res]: what clock_getres tells, none when it fails.
    Without a usable coarse clock the precise one is asked in its place.  src: time.cxx:57-70 *)
Definition clock_init (res : option (Z * Z)) : bool * Z :=
  match res with
  | Some (sec, nsec) => if sec =? 0 then (true, u64 nsec) else (false, 0xffffFFFF)
  | None => (false, 0xffffFFFF)
  end.
(** [fine]/[coarse]: what the two clocks give; only one of them is asked.  src: time.cxx:128-131 *)
Definition fptu_now (coarse_resolution_ns fine coarse grain_ns : Z) : Z :=
  let t := if now_grain grain_ns >=? coarse_resolution_ns then coarse else fine in
  Z.shiftl (utc_seconds t) 32 + Z.land (fractional t) (now_mask grain_ns).

(** ** Comparison of byte strings *)
(** [fptu_lge].  src: fast_positive/tuples/legacy.h:718-726 *)
Inductive lge := Lic | Leq | Llt | Lgt.
(** src: fast_positive/tuples/details/legacy_compat.h:127-136 *)
Definition cmp2lge (l r : Z) : lge := if l =? r then Leq else if l <? r then Llt else Lgt.
Definition diff2lge (d : Z) : lge := cmp2lge d 0.
(** src: legacy_compat.h:155-157 *)
Definition cmp2int (l r : Z) : Z := if r >? l then -1 else if l >? r then 1 else 0.
(** [mc l r] is the C library's memcmp of two sequences of the same length; only its sign is
    specified by the standard.  src: src/compat_common.cxx:249-256 *)
Definition fptu_cmp_binary (mc : list Z -> list Z -> Z) (l r : list Z) : lge :=
  let k := Nat.min (length l) (length r) in
  let diff := mc (firstn k l) (firstn k r) in
  diff2lge (if diff =? 0 then cmp2int (Z.of_nat (length l)) (Z.of_nat (length r)) else diff).
(** src: legacy_compat.h:171-174 *)
Definition cmpbin (mc : list Z -> list Z -> Z) (l r : list Z) : lge := diff2lge (mc l r).
(** [None] = no such field.  src: src/compat_ro.cxx:155-163 *)
Definition fptu_cmp_opaque (mc : list Z -> list Z -> Z) (f : option (list Z)) (r : list Z) : lge :=
  match f with
  | None => match r with [] => Leq | _ => Lic end
  | Some l => fptu_cmp_binary mc l r
  end.

(** ** String views *)
(** address, length (-1 = nil); the bytes are those of the memory at the address *)
Record sview := mkSV { sv_str : Z; sv_len : Z }.
Fixpoint bytes_at (m : bmem) (a : Z) (n : nat) : list Z :=
  match n with O => [] | S n => m a :: bytes_at m (a + 1) n end.
(** src: fast_positive/tuples/string_view.h:54, 59-62 *)
Definition sv_nil : sview := mkSV 0 (-1).
Definition sv_make (p count : Z) : sview := mkSV p (if p =? 0 then -1 else count).
(** src: string_view.h:158-160 *)
Definition sv_length (v : sview) : Z := if sv_len v >=? 0 then sv_len v else 0.
Definition sv_bytes (m : bmem) (v : sview) : list Z := bytes_at m (sv_str v) (Z.to_nat (sv_length v)).
(** src: string_view.h:174-179 *)
Definition sv_compare (mc : list Z -> list Z -> Z) (m : bmem) (a b : sview) : Z :=
  let diff := sv_len a - sv_len b in
  if negb (diff =? 0) then diff
  else if sv_str a =? sv_str b then 0
  else mc (sv_bytes m a) (bytes_at m (sv_str b) (Z.to_nat (sv_length a))).
(** [char] is signed on the modelled platform.  src: string_view.h:166-172 *)
Definition sv_hash (m : bmem) (v : sview) : Z :=
  let h := fold_left (fun h c => u64 (Z.lxor h (u64 (sgn 8 c)) * 1664525 + 1013904223))
                     (sv_bytes m v) (u64 (sv_len v * 3977471)) in
  Z.lxor h (u64 (3863194411 * Z.shiftr h 11)).

(** ** String helpers of the Elbrus port *)
(** byte swap of a k-byte word, as the compiler's builtins do *)
Fixpoint bswap_n (k : nat) (w : Z) : Z :=
  match k with O => 0 | S k => (w mod 256) * 256 ^ Z.of_nat k + bswap_n k (w / 256) end.
(** one step: compare [k]-byte words, either decide or go on *)
Definition word_step (k : nat) (m : bmem) (s1 s2 : Z) : option Z :=
  let a := word_at_n k m s1 in let b := word_at_n k m s2 in
  if a =? b then None else Some (if bswap_n k a >? bswap_n k b then 1 else -1).
(** src: src/misc.cxx:135-143; [fuel] bounds the number of rounds *)
Fixpoint e2k_words (fuel : nat) (m : bmem) (s1 s2 n : Z) : Z + (Z * Z * Z) :=
  match fuel with
  | O => inr (s1, s2, n)
  | S fuel => if n >=? 8 then
                match word_step 8 m s1 s2 with Some r => inl r | None => e2k_words fuel m (s1 + 8) (s2 + 8) (n - 8) end
              else inr (s1, s2, n)
  end.
(** the tail: 4, 2, 1 bytes by the bits of [n].  src: misc.cxx:145-163 *)
Definition e2k_tail (m : bmem) (s1 s2 n : Z) : Z :=
  let last s1 s2 := if Z.testbit n 0 then m s1 - m s2 else 0 in
  let two s1 s2 := if Z.testbit n 1 then match word_step 2 m s1 s2 with Some r => r | None => last (s1 + 2) (s2 + 2) end
                   else last s1 s2 in
  if Z.testbit n 2 then match word_step 4 m s1 s2 with Some r => r | None => two (s1 + 4) (s2 + 4) end
  else two s1 s2.
(** the head: 1, 2, 4 bytes by the bits of the address.  src: misc.cxx:101-133 *)
Definition e2k_head (m : bmem) (s1 s2 n : Z) : Z + (Z * Z * Z) :=
  if (n >? 42) && negb (Z.land s1 7 =? 0) && (Z.land s1 7 =? Z.land s2 7) then
    let four s1 s2 n := if negb (Z.land s1 4 =? 0)
                        then match word_step 4 m s1 s2 with Some r => inl r | None => inr (s1 + 4, s2 + 4, n - 4) end
                        else inr (s1, s2, n) in
    let two s1 s2 n := if negb (Z.land s1 2 =? 0)
                       then match word_step 2 m s1 s2 with Some r => inl r | None => four (s1 + 2) (s2 + 2) (n - 2) end
                       else four s1 s2 n in
    if negb (Z.land s1 1 =? 0)
    then (if m s1 - m s2 =? 0 then two (s1 + 1) (s2 + 1) (n - 1) else inl (m s1 - m s2))
    else two s1 s2 n
  else inr (s1, s2, n).
Definition e2k_memcmp (m : bmem) (s1 s2 n : Z) : Z :=
  match e2k_head m s1 s2 n with
  | inl r => r
  | inr (s1, s2, n) =>
      match e2k_words (Z.to_nat (n / 8)) m s1 s2 n with
      | inl r => r
      | inr (s1, s2, n) => e2k_tail m s1 s2 n
      end
  end.
(** [None]: no end of string within [fuel] bytes.  src: misc.cxx:166-175 *)
Fixpoint e2k_strcmp (fuel : nat) (m : bmem) (s1 s2 : Z) : option Z :=
  match fuel with
  | O => None
  | S fuel => let diff := m s1 - m s2 in
              if negb (diff =? 0) || (m s1 =? 0) then Some diff else e2k_strcmp fuel m (s1 + 1) (s2 + 1)
  end.
(** src: misc.cxx:177-188 *)
Fixpoint e2k_strncmp (n : nat) (m : bmem) (s1 s2 : Z) : Z :=
  match n with
  | O => 0
  | S n => let diff := m s1 - m s2 in
           if negb (diff =? 0) || (m s1 =? 0) then diff else e2k_strncmp n m (s1 + 1) (s2 + 1)
  end.
(** src: misc.cxx:190-198 *)
Fixpoint e2k_strlen (fuel : nat) (m : bmem) (s n : Z) : option Z :=
  match fuel with
  | O => None
  | S fuel => if m s =? 0 then Some n else e2k_strlen fuel m (s + 1) (n + 1)
  end.
(** src: misc.cxx:200-208 *)
Fixpoint e2k_strnlen (rest : nat) (m : bmem) (s n : Z) : Z :=
  match rest with
  | O => n
  | S rest => if m s =? 0 then n else e2k_strnlen rest m (s + 1) (n + 1)
  end.

(** ** Hexadecimal dump *)
(** src: src/misc.cxx:77-92 *)
Definition hex_digit (d : Z) : Z := if d <? 10 then d + 48 else d - 10 + 97.
Fixpoint hexadecimal (l : list Z) : list Z :=
  match l with [] => [] | b :: l => hex_digit (Z.shiftr b 4) :: hex_digit (Z.land b 15) :: hexadecimal l end.

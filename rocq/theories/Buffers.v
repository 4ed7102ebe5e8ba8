(** * Buffers: headers of shared buffers in memory, their checks, and their release (model).

    src: fast_positive/tuples/1Hippeus/buffer.h:313-565, src/1Hippeus/buffer.cxx, src/1Hippeus/utils.cxx:173-270.
    64-bit little-endian platform, guards compiled in and switched on (hipagut.h:68-183), assertions
    off, built without HIPPEUS (no binder of shared allocators).  One thread at a time: interleavings
    are the matter of Hippeus.v.  The clock behind a guard is a parameter: [g_under], [g_head],
    [g_over] are what the setups arrived at. *)
From Coq Require Import ZArith List Bool.
From Verif Require Import Base Hippeus Guarded.
Import ListNotations.
Local Open Scope Z_scope.

(** ** The header, at the address [a] *)
(** 64-bit words.  src: buffer.h:318, 336-339 *)
Definition dword (m : mem) (a : Z) : Z := word m a + word m (a + 4) * 2 ^ 32.
Definition put_dword (m : mem) (a w : Z) : mem := put_word (put_word m a w) (a + 4) (w / 2 ^ 32).
(** guard_head 8, _data_offset 8, simple_msg 8, space 4, ref_counter 4, host 8, guard_under 8, _inplace.
    src: buffer.h:313-349 *)
Definition at_head : Z := 0.
Definition at_offset : Z := 8.
Definition at_space : Z := 24.
Definition at_ref : Z := 28.
Definition at_host : Z := 32.
Definition at_under : Z := 40.
Definition at_inplace : Z := 48.
(** src: buffer.h:314-345 (labels of the guards), buffer.cxx:61-69 *)
Definition lab_head : Z := label_sig [104; 101; 97; 100].
Definition lab_under : Z := label_sig [117; 110; 100; 101; 114].
Definition lab_over : Z := label_sig [111; 118; 101; 114].

(** src: buffer.h:437 *)
Definition size (m : mem) (a : Z) : Z := word m (a + at_space).
Definition counter (m : mem) (a : Z) : Z := sgn 32 (word m (a + at_ref)).
Definition host (m : mem) (a : Z) : Z := dword m (a + at_host).
(** src: buffer.h:424-435 *)
Definition is_readonly (m : mem) (a : Z) : bool := negb (Z.land (host m a) 1 =? 0).
Definition is_localweak (m : mem) (a : Z) : bool := negb (Z.land (host m a) 2 =? 0).
Definition is_warpable (m : mem) (a : Z) : bool := Z.land (host m a) 3 =? 0.
Definition is_alterable (m : mem) (a : Z) : bool := (counter m a =? 1) && negb (is_readonly m a).
(** src: buffer.h:443-459; the offset is signed, its sum with the address wraps *)
Definition begin_ (m : mem) (a : Z) : Z := u64 (a + dword m (a + at_offset)).
Definition end_ (m : mem) (a : Z) : Z := u64 (begin_ m a + size m a).
(** src: buffer.h:464-466 *)
Definition is_solid (m : mem) (a : Z) : bool := dword m (a + at_offset) =? at_inplace.

(** ** Making a header *)
(** [bytes] is a ptrdiff_t; [None] = the failed FPTU_ENSURE.  The filling with 0xCC under
    [hippeus_buffer_enforce_deep_checking] is left out.  src: buffer.cxx:121-149 *)
Definition init (m : mem) (a h payload bytes : Z) (g_under g_head g_over : Z * Z) : option mem :=
  if (bytes >=? 0) && Bool.eqb (negb (payload =? 0)) (negb (bytes =? 0)) then
    let m := put_word m (a + at_space) (u32 bytes) in
    let m := put_dword m (a + at_host) h in
    let m := put_word m (a + at_ref) 1 in
    let m := put_dword m (a + at_offset) (if payload =? 0 then 0 else u64 (payload - a)) in
    let m := put_guard m (a + at_under) g_under in
    let m := put_guard m (a + at_head) g_head in
    Some (if payload =? a + at_inplace then put_guard m (a + at_inplace + bytes) g_over else m)
  else None.
(** [gross] is a size_t: a difference below zero is a negative ptrdiff_t.  src: buffer.h:505-513 *)
Definition init_solid (m : mem) (a h gross : Z) : (Z * Z) -> (Z * Z) -> (Z * Z) -> option mem :=
  init m a h (a + at_inplace) (sgn 64 (u64 (gross - space_overhead 8))).
(** src: buffer.h:534-542, 556-562 *)
Definition init_apart (m : mem) (a h payload bytes : Z) : (Z * Z) -> (Z * Z) -> (Z * Z) -> option mem :=
  init m a h payload (sgn 64 bytes).

(** ** Checks *)
(** [space] is of 32 bits without a sign, so the first test of the source never fails.  The probing of
    pages is separate, see below.  src: buffer.cxx:41-86, 92-98 *)
Definition check (m : mem) (a : Z) : bool :=
  negb (0 >? size m a) && negb (counter m a <=? 0) && negb (host m a =? 0) &&
  guard_ok m (a + at_head) lab_head && guard_ok m (a + at_under) lab_under &&
  (if is_solid m a then guard_ok m (a + at_inplace + size m a) lab_over else true).
(** [false] = a failed FPTU_ENSURE or guard.  src: buffer.cxx:100-114 *)
Definition ensure (m : mem) (a : Z) : bool :=
  (size m a >? 0) && negb (host m a =? 0) && (counter m a >? 0) &&
  guard_ok m (a + at_head) lab_head && guard_ok m (a + at_under) lab_under &&
  (if is_solid m a then guard_ok m (a + at_inplace + size m a) lab_over else true).

(** ** References *)
Definition set_counter (m : mem) (a c : Z) : mem := put_word m (a + at_ref) (u32 c).
(** src: buffer.cxx:151-165 *)
Definition add_reference (m : mem) (a : Z) : mem := set_counter m a (counter m a + 1).
(** src: buffer.cxx:113-119 *)
Definition drown (m : mem) (a : Z) : mem :=
  let m := set_counter m a (-1) in
  let m := put_guard m (a + at_head) drowned_guard in
  let m := put_guard m (a + at_under) drowned_guard in
  if is_solid m a then put_guard m (a + at_inplace + size m a) drowned_guard else m.
(** What becomes of the buffer.  [Terminated]: an exception leaves a noexcept function. *)
Inductive fate :=
| Kept (m : mem)
| Destroyed (m : mem)                 (* the virtual destructor of buffer_weak *)
| Repaid (allot : Z) (m : mem)        (* given back to the allocator *)
| Terminated.
(** src: buffer.cxx:167-206 *)
Definition release (m : mem) (a : Z) : fate :=
  let m := drown m a in
  if is_localweak m a then
    if host m a <? 16 then Destroyed m
    else if tag_local_allot (host m a) =? 0 then Terminated else Repaid (tag_local_allot (host m a)) m
  else Terminated.
Definition detach (m : mem) (a : Z) : fate :=
  if counter m a =? 1 then release m a
  else let m := set_counter m a (counter m a - 1) in
       if counter m a >? 0 then Kept m else release m a.

(** ** Borrowing *)
Inductive loan :=
| Lent (a : Z) (m : mem)
| NoAllot                             (* invalid_allot *)
| BadSize                             (* invalid_argument *)
| Other (allot : Z)                   (* another allocator answers *)
| Bug.                                (* a failed FPTU_ENSURE *)
(** [std] is the address of hippeus_allot_stdcxx, [block] what operator new returned.
    src: buffer.cxx:208-233, allot_stdcxx.cxx:39-71 *)
Definition lend (m : mem) (std tag wanna block : Z) (leastwise : bool) (g_under g_head g_over : Z * Z) : loan :=
  let tag := if tag =? 0 then tag_of_local std false else tag in
  if Z.land (tag_flags tag) 2 =? 0 then NoAllot
  else
    let allot := tag_local_allot tag in
    if allot =? 0 then NoAllot
    else if negb (allot =? std) then Other allot
    else
      match borrow 8 wanna block with
      | None => BadSize
      | Some b =>
          match init_solid m (b_addr b) (tag_of_local allot false) (b_bytes b) g_under g_head g_over with
          | None => Bug
          | Some m => if leastwise && (size m (b_addr b) <? wanna) then Bug else Lent (b_addr b) m
          end
      end.

(** ** Probing pages *)
(** The addresses touched, first to last; a probe reads a byte and may write it back unchanged.
    [fuel] bounds the rounds.  src: utils.cxx:173-194 *)
Fixpoint probes (fuel : nat) (addr bytes step offset : Z) : list Z :=
  match fuel with
  | O => []
  | S fuel => if offset <? bytes then (addr + offset) :: probes fuel addr bytes step (offset + step) else []
  end.
Definition probe_pages (addr bytes step : Z) : list Z := probes (Z.to_nat bytes) addr bytes step 0.
(** Batches of at most [iov_max] single bytes given to writev; [fault x] = the page of [x] cannot be had.
    The answer and the batches handed over; opening and closing /dev/null are left out.
    src: utils.cxx:238-270 *)
Fixpoint batches (fuel : nat) (iov_max : nat) (l : list Z) : list (list Z) :=
  match fuel, l with
  | O, _ | _, [] => []
  | S fuel, _ => firstn iov_max l :: batches fuel iov_max (skipn iov_max l)
  end.
Fixpoint feed (fault : Z -> bool) (bs : list (list Z)) : bool * list (list Z) :=
  match bs with
  | [] => (true, [])
  | b :: bs => if existsb fault b then (false, [b]) else let (r, done) := feed fault bs in (r, b :: done)
  end.
Definition prefault (fault : Z -> bool) (iov_max : nat) (addr bytes step : Z) : bool * list (list Z) :=
  let l := probe_pages addr bytes step in feed fault (batches (length l) iov_max l).

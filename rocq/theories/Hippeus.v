(** * Hippeus: shared buffers, guards, tags and bulk memory helpers (model). *)
From Verif Require Import Base.

(** ** Reference counting, all interleavings.

    src: src/1Hippeus/buffer.cxx:151-206 ([add_reference], [detach]), 113-119 ([drown]),
    buffer.h:433-435 ([is_alterable]).  A state lists every handle ever made and how far its
    owner got with it.  Different handles may be used by different threads; each atomic access
    to the counter is one step, so every interleaving of any number of threads is a run.  One
    handle is used by one thread at a time. *)
Inductive hstate :=
| Held          (* the owner may read the buffer, copy the handle, or begin to drop it *)
| Deciding      (* detach: the counter was read and was not 1, the decrement is next *)
| Freeing       (* detach: this thread goes on to drown and repay the buffer *)
| Drowned       (* detach: counter and guards are overwritten, repay is next *)
| Dropped.
Record rstate := mkR { r_cnt : Z; r_freed : Z; r_handles : list hstate }.
(** [int32_t ref_counter]; the atomic builtins wrap around *)
Definition i32 (x : Z) : Z := sgn 32 (u32 x).

Inductive rstep : rstate -> rstate -> Prop :=
| r_copy c f l1 l2 : rstep (mkR c f (l1 ++ Held :: l2)) (mkR (i32 (c + 1)) f (l1 ++ Held :: l2 ++ [Held]))
| r_look c f l1 l2 : rstep (mkR c f (l1 ++ Held :: l2))
    (mkR c f (l1 ++ (if c =? 1 then Freeing else Deciding) :: l2))
| r_dec c f l1 l2 : rstep (mkR c f (l1 ++ Deciding :: l2))
    (mkR (i32 (c - 1)) f (l1 ++ (if i32 (c - 1) >? 0 then Dropped else Freeing) :: l2))
| r_drown c f l1 l2 : rstep (mkR c f (l1 ++ Freeing :: l2)) (mkR (-1) f (l1 ++ Drowned :: l2))
| r_repay c f l1 l2 : rstep (mkR c f (l1 ++ Drowned :: l2)) (mkR c (f + 1) (l1 ++ Dropped :: l2)).
(** [buffer::init] leaves the counter at 1, one handle.  src: buffer.cxx:129 *)
Definition r_init : rstate := mkR 1 0 [Held].
Inductive rreach : rstate -> Prop :=
| rr_init : rreach r_init
| rr_step s t : rreach s -> rstep s t -> rreach t.
Definition is_alterable (c : Z) (readonly : bool) : bool := (c =? 1) && negb readonly.

(** ** Borrowing a buffer *)
(** sizes on a 64-bit platform: guard 8, offset 8, message 8, space 4, counter 4, tag 8, guard 8,
    one byte in place, padded to 8 bytes.  [g] = size of one guard: 8, or 0 when disabled.
    src: buffer.h:313-349, hipagut.h:116-118 *)
Definition inplace_offset (g : Z) : Z := g + 8 + 8 + 4 + 4 + 8 + g.
Definition sizeof_buffer (g : Z) : Z := inplace_offset g + 8.
(** src: buffer.h:505-507 *)
Definition space_overhead (g : Z) : Z := sizeof_buffer g + g.
(** src: essentials.h:70-78 *)
Definition buffer_limit : Z := 4 * 65534 * 2.
(** src: utils.h:204-208 on size_t *)
Definition ceil (v align : Z) : Z := Z.land (u64 (v + align - 1)) (2 ^ 64 - align).
(** What is asked of the heap: (address of the block returned by [operator new], its size).
    The allocator keeps a guard before and after the buffer.  The buffer proper is at
    [block + g], its header records [space].  [None] = invalid_argument.
    src: allot_stdcxx.cxx:39-71, hipagut_allocator.h:138-150, buffer.cxx:121-130 *)
Record borrowed := mkB { b_block : Z; b_block_size : Z; b_addr : Z; b_bytes : Z; b_space : Z; b_data : Z }.
Definition borrow (g wanna block : Z) : option borrowed :=
  if (wanna <? 1) || (wanna >? buffer_limit) then None
  else
    let overhead := g * 2 + 8 * 2 in
    let bytes := u64 (ceil (u64 (wanna + space_overhead g + overhead)) 64 - overhead) in
    Some (mkB block (bytes + g * 2) (block + g) bytes
              (u32 (bytes - space_overhead g)) (block + g + inplace_offset g)).
(** (address, size) given back to [operator delete].
    src: allot_stdcxx.cxx:73-81, hipagut_allocator.h:153-167 *)
Definition repay (g addr space : Z) : Z * Z := (addr - g, u64 (space + space_overhead g) + g * 2).

(** ** Guards *)
(** src: hipagut.cxx:63-69 *)
Definition mixup (chirp sig : Z) : Z :=
  let mesh := u64 (0xD0C3DFD7 * u32 (chirp + sig)) in u32 (Z.lxor mesh (Z.shiftr mesh 32)).
(** src: hipagut.cxx:72-74 *)
Definition fairly (v : Z) : bool := (v <? 0xFFFF0000) && (v >? 0x0000FFFF).
(** [n] rounds of the loop; the start value comes from the clock.  src: hipagut.cxx:76-90 *)
Fixpoint guard_setup (n : nat) (chirp sig : Z) : option (Z * Z) :=
  match n with
  | O => None
  | S n => if fairly chirp && fairly (mixup chirp sig) then Some (chirp, mixup chirp sig)
           else guard_setup n (u32 (chirp * 1664525 + 1013904223)) sig
  end.
(** src: hipagut.cxx:94-107 (checking enabled) *)
Definition guard_probe (chirp mesh sig : Z) : bool :=
  fairly chirp && fairly mesh && (mesh =? mixup chirp sig).
(** the 64-bit constant, low word first.  src: hipagut.h:107-112 *)
Definition drowned_guard : Z * Z := (0xDEADB0D1F mod 2 ^ 32, 0xDEADB0D1F / 2 ^ 32).

(** ** Buffer tags (64-bit platform) *)
(** src: buffer.h:217-222 *)
Definition tag_of_local (allot : Z) (readonly : bool) : Z := Z.lor allot (if readonly then Z.lor 2 1 else 2).
(** src: buffer.h:224-228 *)
Definition tag_of_parts (allot_id depot crate flags : Z) : Z :=
  Z.lor (Z.lor (Z.lor flags (u64 (Z.shiftl allot_id 4))) (u64 (Z.shiftl depot 32))) (u64 (Z.shiftl crate 48)).
(** src: buffer.h:239-241 *)
Definition tag_flags (t : Z) : Z := Z.land t 15.
(** src: buffer.h:256-259 *)
Definition tag_allot_id (t : Z) : Z := Z.land (Z.shiftr t 4) (2 ^ 28 - 1).
(** src: buffer.h:271-274 *)
Definition tag_depot (t : Z) : Z := Z.land (Z.shiftr t 32) (2 ^ 16 - 1).
(** src: buffer.h:280-283 *)
Definition tag_crate (t : Z) : Z := Z.land (Z.shiftr t 48) (2 ^ 16 - 1).
(** src: buffer.h:286-290 *)
Definition tag_local_allot (t : Z) : Z := Z.land t (2 ^ 64 - 16).

(** ** Tagged pointers (64-bit platform) *)
(** src: tagged_pointer.h:55-57, 76-82, 88-90, 107-123 *)
Definition narrow_make (p tag : Z) : Z := Z.lor p (u64 (Z.shiftl tag 4)).
Definition narrow_tag (b : Z) : Z := Z.land b 15.
Definition narrow_ptr (b : Z) : Z := Z.land b (2 ^ 64 - 16).
Definition narrow_set_ptr (b p : Z) : Z := Z.lor (Z.land b 15) p.
Definition narrow_set_tag (b tag : Z) : Z := Z.lor (Z.land b (2 ^ 64 - 16)) (u64 (Z.shiftl tag 4)).
(** src: tagged_pointer.h:158-167, 185-191, 198-200, 217-233 *)
Definition wide_make (p tag : Z) : Z := Z.lor p (u64 (Z.shiftl tag 16)).
Definition wide_tag (b : Z) : Z := Z.shiftr b 48.
Definition wide_ptr (b : Z) : Z := Z.land b (2 ^ 48 - 1).
Definition wide_set_ptr (b p : Z) : Z := Z.lor (Z.land b (2 ^ 64 - 2 ^ 48)) p.
Definition wide_set_tag (b tag : Z) : Z := Z.lor (Z.land b (2 ^ 48 - 1)) (u64 (Z.shiftl tag 16)).

(** ** Bulk memory helpers (little endian, 64-bit words) *)
Definition bmem := Z -> Z.
Fixpoint word_at_n (n : nat) (m : bmem) (a : Z) : Z :=
  match n with O => 0 | S n => m a + 256 * word_at_n n m (a + 1) end.
Definition word_at (m : bmem) (a : Z) : Z := word_at_n 8 m a.
Definition store_word (m : bmem) (a w : Z) : bmem :=
  fun x => if (a <=? x) && (x <? a + 8) then Z.land (Z.shiftr w (8 * (x - a))) 255 else m x.
Definition whole : Z := 2 ^ 64 - 1.
(** src: src/1Hippeus/utils.cxx:58-68 (little-endian branch) *)
Definition aheadmask (bytes : Z) : Z := Z.shiftr whole (8 * (8 - bytes)).
(** mask of the first, unaligned, word.  [b] is the length of the range.
    src: utils.cxx:85-97 *)
Definition headmask (unalign b : Z) : Z :=
  let rest := b - (8 - unalign) in
  let gate := if rest <? 0 then Z.shiftr whole ((unalign - rest) * 8) else whole in
  u64 (Z.shiftl gate (unalign * 8)).
(** A functor: state, memory, word address, mask -> new state, new memory, stop?  The unmasked
    call is the masked one with the full mask.  Result: state, memory, stopped?
    src: utils.cxx:82-116 ([uintptr_applier]) *)
Fixpoint apply_words {T : Type} (F : T -> bmem -> Z -> Z -> T * bmem * bool)
  (n : nat) (s : T) (m : bmem) (a bytes : Z) : T * bmem * bool :=
  match n with
  | O => if bytes >? 0 then F s m a (aheadmask bytes) else (s, m, false)
  | S n =>
      let '(s, m, stop) := F s m a whole in
      if stop then (s, m, true) else apply_words F n s m (a + 8) (bytes - 8)
  end.
Definition applier {T : Type} (F : T -> bmem -> Z -> Z -> T * bmem * bool)
  (s : T) (m : bmem) (p bytes : Z) : T * bmem * bool :=
  let unalign := p mod 8 in
  if unalign =? 0 then apply_words F (Z.to_nat (bytes / 8)) s m p bytes
  else
    let a := p - unalign in
    let '(s, m, stop) := F s m a (headmask unalign bytes) in
    if stop then (s, m, true)
    else let rest := bytes - (8 - unalign) in apply_words F (Z.to_nat (rest / 8)) s m (a + 8) rest.
(** src: fast_positive/tuples/1Hippeus/utils.h:37-39 *)
Definition linear_congruential (v : Z) : Z := u64 (v * 6364136223846793005 + 1442695040888963407).
(** src: utils.cxx:118-146 *)
Definition pollute_functor (congruential : bool) (value : Z) (m : bmem) (a mask : Z) : Z * bmem * bool :=
  let value := if congruential then linear_congruential value else value in
  (value, store_word m a (Z.lxor (word_at m a) (Z.land value mask)), false).
(** src: utils.cxx:195-207 *)
Definition pollute (m : bmem) (p bytes xormask : Z) : bmem :=
  if bytes >? 0 then
    if negb (xormask =? 0) then snd (fst (applier (pollute_functor false) xormask m p bytes))
    else snd (fst (applier (pollute_functor true) (Z.lxor bytes p) m p bytes))
  else m.
(** src: utils.cxx:148-157 *)
Definition probe4zero (s : unit) (m : bmem) (a mask : Z) : unit * bmem * bool :=
  (tt, m, negb (Z.land (word_at m a) mask =? 0)).
(** src: utils.cxx:209-213 *)
Definition is_zeroed (m : bmem) (p bytes : Z) : bool :=
  (bytes >? 0) && negb (snd (applier probe4zero tt m p bytes)).

(** [n] bounds the number of rounds (the loop doubles at least once per round).
    src: utils.cxx:215-235 *)
Fixpoint log2size_loop (n : nat) (value result upper step : Z) : Z :=
  match n with
  | O => result
  | S n => if value >? result then
             let result := u64 (Z.shiftl result step) in
             if result >=? upper then upper else log2size_loop n value result upper step
           else result
  end.
Definition log2size (value log2min log2max log2step : Z) : Z :=
  log2size_loop (Z.to_nat log2max) value (2 ^ log2min) (2 ^ log2max) log2step.

(** ** Byte-pattern predicates *)
(** little-endian signed load of [n] bytes *)
Definition sload (n : nat) (m : bmem) (a : Z) : Z := sgn (8 * Z.of_nat n) (word_at_n n m a).
(** widths 1..8.  src: fast_positive/tuples/details/utils.h:78-115 (64-bit) *)
Definition disjunction_small (bytes : nat) (m : bmem) (a : Z) : Z :=
  match bytes with
  | 1%nat => sload 1 m a
  | 2%nat => sload 2 m a
  | 3%nat => Z.lor (sload 2 m a) (sload 1 m (a + 2))
  | 4%nat => sload 4 m a
  | 5%nat => Z.lor (sload 4 m a) (sload 1 m (a + 4))
  | 6%nat => Z.lor (sload 4 m a) (sload 2 m (a + 4))
  | 7%nat => Z.lor (Z.lor (sload 4 m a) (sload 2 m (a + 4))) (sload 1 m (a + 6))
  | 8%nat => sload 8 m a
  | _ => 0
  end.
(** src: details/utils.h:117-122; [n] = number of recursive instantiations *)
Fixpoint bytes_disjunction (n : nat) (rest : nat) (m : bmem) (a : Z) : Z :=
  match n with O => disjunction_small rest m a | S n => Z.lor (sload 8 m a) (bytes_disjunction n rest m (a + 8)) end.
(** src: details/utils.h:129-166 (64-bit) *)
Definition conjunction_small (bytes : nat) (m : bmem) (a : Z) : Z :=
  match bytes with
  | 1%nat => sload 1 m a
  | 2%nat => sload 2 m a
  | 3%nat => Z.land (sload 2 m a) (sload 1 m (a + 2))
  | 4%nat => sload 4 m a
  | 5%nat => Z.land (sload 4 m a) (sload 1 m (a + 4))
  | 6%nat => Z.land (sload 4 m a) (sload 2 m (a + 4))
  | 7%nat => Z.land (Z.land (sload 4 m a) (sload 2 m (a + 4))) (sload 1 m (a + 6))
  | 8%nat => sload 8 m a
  | _ => 0
  end.
(** src: details/utils.h:168-173 *)
Fixpoint bytes_conjunction (n : nat) (rest : nat) (m : bmem) (a : Z) : Z :=
  match n with O => conjunction_small rest m a | S n => Z.land (sload 8 m a) (bytes_conjunction n rest m (a + 8)) end.
(** [bytes] = 8 n + rest with 1 <= rest <= 8.  src: details/utils.h:177-183 *)
Definition is_zero (bytes : Z) (m : bmem) (a : Z) : bool :=
  bytes_disjunction (Z.to_nat ((bytes - 1) / 8)) (Z.to_nat ((bytes - 1) mod 8 + 1)) m a =? 0.
Definition is_allones (bytes : Z) (m : bmem) (a : Z) : bool :=
  bytes_conjunction (Z.to_nat ((bytes - 1) / 8)) (Z.to_nat ((bytes - 1) mod 8 + 1)) m a =? -1.

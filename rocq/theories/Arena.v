(** * Arena: the on-stack allocation arena (model).

    src: fast_positive/erthink/erthink_short_alloc.h.  The template parameters are data of the
    model: [out] = ALLOW_OUTLIVE, [size] = N_BYTES, [kal] = log2 ALIGN.  Debug checkpoints and
    memory poisoning (only without NDEBUG) are left out.  [operator new] is an input: the caller
    supplies the address it returns. *)
From Verif Require Import Base.

(** src: erthink_short_alloc.h:70-112 *)
Record arena := mkA { a_buf : Z; a_size : Z; a_kal : Z; a_out : bool; a_ptr : Z }.
Definition a_align (a : arena) : Z := 2 ^ a_kal a.
Definition with_ptr (a : arena) (p : Z) : arena := mkA (a_buf a) (a_size a) (a_kal a) (a_out a) p.

(** src: erthink_short_alloc.h:136 *)
Definition arena_new (buf size kal : Z) (out : bool) : arena := mkA buf size kal out buf.
(** [~(alignment - 1)] on 64 bits is [2^64 - alignment].  src: erthink_short_alloc.h:114-116 *)
Definition align_up (a : arena) (n : Z) : Z := Z.land (u64 (n + (a_align a - 1))) (2 ^ 64 - a_align a).
(** src: erthink_short_alloc.h:118-123 *)
Definition pointer_in_buffer (a : arena) (p : Z) (accept_end : bool) : bool :=
  (a_buf a <=? p) && (if accept_end then p <=? a_buf a + a_size a else p <? a_buf a + a_size a).
(** src: erthink_short_alloc.h:173-178 *)
Definition chunk_in_bounds (a : arena) (p bytes : Z) : bool :=
  pointer_in_buffer a p true && ((bytes =? 0) || pointer_in_buffer a (p + bytes) true).

Inductive alloc_result := InArena (p : Z) (a : arena) | FromHeap | Exhausted.
(** src: erthink_short_alloc.h:180-208 *)
Definition allocate (a : arena) (n : Z) : alloc_result :=
  if pointer_in_buffer a (a_ptr a) false && (a_buf a + a_size a - a_ptr a >=? align_up a n)
  then InArena (a_ptr a) (with_ptr a (a_ptr a + align_up a n))
  else if a_out a then FromHeap else Exhausted.

Inductive free_result := KeptInArena (a : arena) | ToHeap | LogicError.
(** src: erthink_short_alloc.h:210-238 *)
Definition deallocate (a : arena) (p n : Z) : free_result :=
  if pointer_in_buffer a p false then
    KeptInArena (if p + align_up a n =? a_ptr a then with_ptr a p else a)
  else if a_out a then ToHeap else LogicError.
(** src: erthink_short_alloc.h:240-245 *)
Definition used (a : arena) : Z := a_ptr a - a_buf a.

(** ** Clients.  A chunk is (address, length, taken from the heap?). *)
Definition chunk := (Z * Z * bool)%type.
Record world := mkW { w_arena : arena; w_live : list chunk }.
(** What [operator new] guarantees: its block (at least one byte) shares no byte with the arena's
    buffer or with a block it handed out before. *)
Definition fresh_block (w : world) (h n : Z) : Prop :=
  0 < h /\ (h + Z.max 1 n <= a_buf (w_arena w) \/ a_buf (w_arena w) + a_size (w_arena w) <= h) /\
  forall p m, In (p, m, true) (w_live w) -> h + Z.max 1 n <= p \/ p + Z.max 1 m <= h.

(** One call by a client that frees only chunks it holds, with the length it asked for.
    A failed allocation changes nothing. *)
Inductive wstep : world -> world -> Prop :=
| w_alloc_in w n p a : 0 <= n < 2 ^ 64 -> allocate (w_arena w) n = InArena p a ->
    wstep w (mkW a ((p, n, false) :: w_live w))
| w_alloc_heap w n h : 0 <= n < 2 ^ 64 -> allocate (w_arena w) n = FromHeap -> fresh_block w h n ->
    wstep w (mkW (w_arena w) ((h, n, true) :: w_live w))
| w_alloc_fail w n : 0 <= n < 2 ^ 64 -> allocate (w_arena w) n = Exhausted -> wstep w w
| w_free_in w l1 l2 p n b a : w_live w = l1 ++ (p, n, b) :: l2 -> deallocate (w_arena w) p n = KeptInArena a ->
    wstep w (mkW a (l1 ++ l2))
| w_free_heap w l1 l2 p n b : w_live w = l1 ++ (p, n, b) :: l2 -> deallocate (w_arena w) p n = ToHeap ->
    wstep w (mkW (w_arena w) (l1 ++ l2)).

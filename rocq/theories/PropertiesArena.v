(** * Properties of the on-stack arena: C43 *)
From Verif Require Import Base Arena ArenaProofs.
From Coq Require Import ZifyBool ZifyNat.

(** [arena_ok] is what the static assertions of the class and the alignment of its buffer give;
    [calls_ok] is any sequence of calls in which no request exceeds 2^64 - alignment bytes. *)

(** In every reachable situation no two live chunks share a byte. *)
Theorem C43_chunks_never_overlap_partial : forall buf size kal out w l1 p n b l2 q m c l3,
  arena_ok (arena_new buf size kal out) -> calls_ok (mkW (arena_new buf size kal out) []) w ->
  w_live w = l1 ++ (p, n, b) :: l2 ++ (q, m, c) :: l3 ->
  forall x, ~ (p <= x < p + n /\ q <= x < q + m).
Proof. intros. eapply live_apart; [|eassumption]. eapply calls_inv; [|eassumption]. apply new_inv. assumption. Qed.

(** A live chunk lies inside the arena, aligned, or is a heap block away from it (and then the
    arena was allowed to use the heap). *)
Theorem C43_chunk_location_partial : forall buf size kal out w p n b,
  arena_ok (arena_new buf size kal out) -> calls_ok (mkW (arena_new buf size kal out) []) w ->
  In (p, n, b) (w_live w) ->
  (b = false -> a_buf (w_arena w) <= p /\ p + n <= a_buf (w_arena w) + a_size (w_arena w) /\ p mod 2 ^ a_kal (w_arena w) = 0) /\
  (b = true -> a_out (w_arena w) = true /\ (p + n <= a_buf (w_arena w) \/ a_buf (w_arena w) + a_size (w_arena w) <= p)).
Proof.
  intros buf size kal out w p n b O C I.
  pose proof (calls_inv _ _ (new_inv _ _ _ _ O) C) as V. destruct V as [ok ptr al len nw inn ou din dout].
  assert (K : 0 <= a_kal (w_arena w) < 64) by apply ok.
  split; intros ->.
  - destruct (inn p n I) as (I1 & I2 & I3). split; [apply I1|]. split; [|exact I3].
    pose proof (len _ _ _ I) as L. pose proof (nw _ _ I) as N. unfold no_wrap in N.
    pose proof (align_up_bounds (w_arena w) n K (conj (proj1 L) N)) as [B _].
    destruct (Z.eq_dec n 0) as [->|Nz]; [clear - I1; lia|].
    assert (P : 0 < n) by lia. specialize (I2 P). clear - I2 B ptr. lia.
  - destruct (ou p n I) as (I1 & I2 & I3). split; [exact I1|]. clear - I3. lia.
Qed.

(** Freeing gives a chunk back to where it came from: heap chunks to [operator delete], arena
    chunks to the arena, and the exception "disabled to exhausted arena" never occurs. *)
Theorem C43_returned_to_origin_partial : forall buf size kal out w p n b,
  arena_ok (arena_new buf size kal out) -> calls_ok (mkW (arena_new buf size kal out) []) w ->
  In (p, n, b) (w_live w) ->
  match deallocate (w_arena w) p n with
  | KeptInArena _ => b = false
  | ToHeap => b = true
  | LogicError => False
  end.
Proof.
  intros buf size kal out w p n b O C I.
  pose proof (calls_inv _ _ (new_inv _ _ _ _ O) C) as V. destruct V as [ok ptr al len nw inn ou din dout].
  unfold deallocate, pointer_in_buffer. destruct b.
  - destruct (ou p n I) as (I1 & I2 & I3). destruct (_ && _) eqn:E; [|rewrite I1; reflexivity].
    exfalso. apply andb_prop in E. destruct E as [E1 E2]. clear - I3 E1 E2. lia.
  - destruct (inn p n I) as (I1 & _). destruct (_ && _) eqn:E; [reflexivity|].
    exfalso. clear - I1 E. lia.
Qed.

(** Releasing the most recent chunk of the arena restores it exactly. *)
Theorem C43_last_chunk_reclaimed : forall a n p a', allocate a n = InArena p a' ->
  deallocate a' p n = KeptInArena a.
Proof.
  intros [buf size kal out ptr] n p a' H. unfold allocate in H. destruct (_ && _) eqn:E; [|destruct (a_out _); discriminate].
  injection H as <- <-. unfold deallocate. rewrite align_up_ptr.
  apply andb_prop in E. destruct E as [E _]. unfold pointer_in_buffer in *. cbn [a_buf a_size a_ptr with_ptr] in *. rewrite E. rewrite Z.eqb_refl. reflexivity.
Qed.

(** A request is served from the arena exactly when that many bytes are left in it: rounding never
    turns a request that fits away. *)
Theorem C43_room_is_used_partial : forall buf size kal out w n,
  arena_ok (arena_new buf size kal out) -> calls_ok (mkW (arena_new buf size kal out) []) w ->
  0 < n -> no_wrap (w_arena w) n ->
  ((exists p a, allocate (w_arena w) n = InArena p a) <-> n <= a_buf (w_arena w) + a_size (w_arena w) - a_ptr (w_arena w)).
Proof.
  intros buf size kal out w n O C Hn NW.
  pose proof (calls_inv _ _ (new_inv _ _ _ _ O) C) as V. destruct V as [ok ptr al len nw inn ou din dout].
  destruct ok as (B0 & S0 & BS & K & Ba & Sa). destruct (align_up_bounds (w_arena w) n K ltac:(unfold no_wrap in NW; lia)) as [A1 A2].
  assert (P : 0 < a_align (w_arena w)) by (apply Z.pow_pos_nonneg; lia).
  unfold allocate, pointer_in_buffer. set (a := w_arena w) in *. set (q := a_align a) in *. clearbody q.
  assert (R : n <= a_buf a + a_size a - a_ptr a <-> align_up a n <= a_buf a + a_size a - a_ptr a).
  { split; [|lia]. intros L.
    pose proof (Z.div_mod (a_buf a) q ltac:(lia)). pose proof (Z.div_mod (a_size a) q ltac:(lia)).
    pose proof (Z.div_mod (a_ptr a) q ltac:(lia)). pose proof (Z.div_mod (align_up a n) q ltac:(lia)).
    set (x := a_buf a / q + a_size a / q - a_ptr a / q). set (y := align_up a n / q) in *.
    assert (Ex : a_buf a + a_size a - a_ptr a = x * q) by (unfold x; lia). rewrite Ex in *.
    assert (Ey : align_up a n = y * q) by lia. rewrite Ey in *. apply Z.mul_le_mono_nonneg_r; [lia|]. nia. }
  rewrite R. destruct (_ && _) eqn:E.
  - split; [lia|]. intros _. eexists. eexists. reflexivity.
  - split; [intros (p & a' & H); destruct (a_out a); discriminate|]. intros L. lia.
Qed.
(** The count of used bytes: a multiple of the alignment not above the size of the buffer, and none of a new arena; every live chunk
    of the arena lies within it, and what a request may ask for is the rest. *)
Theorem C43_used_partial : forall buf size kal out w,
  arena_ok (arena_new buf size kal out) -> calls_ok (mkW (arena_new buf size kal out) []) w ->
  used (arena_new buf size kal out) = 0 /\
  0 <= used (w_arena w) <= a_size (w_arena w) /\ used (w_arena w) mod 2 ^ a_kal (w_arena w) = 0 /\
  (forall p n, In (p, n, false) (w_live w) -> 0 < n -> p + n <= a_buf (w_arena w) + used (w_arena w)) /\
  (forall n, 0 < n -> no_wrap (w_arena w) n ->
     ((exists p a, allocate (w_arena w) n = InArena p a /\ p = a_buf (w_arena w) + used (w_arena w)) <-> n <= a_size (w_arena w) - used (w_arena w))).
Proof.
  intros buf size kal out w O C. pose proof (fun n => C43_room_is_used_partial buf size kal out w n O C) as Rm.
  pose proof (calls_inv _ _ (new_inv _ _ _ _ O) C) as V. destruct V as [ok ptr al len nw inn ou din dout].
  destruct ok as (B0 & S0 & BS & K & Ba & Sa). unfold used in *. cbn [arena_new a_ptr a_buf].
  split; [apply Z.sub_diag|]. split; [clear - ptr; lia|]. split.
  { assert (P : 2 ^ a_kal (w_arena w) <> 0) by (apply Z.pow_nonzero; lia). unfold a_align in *. rewrite Zminus_mod, al, Ba. apply Z.mod_0_l. exact P. }
  split.
  - intros p n I Hn. destruct (inn p n I) as (I1 & I2 & I3). pose proof (len _ _ _ I) as L. pose proof (nw _ _ I) as N. unfold no_wrap in N.
    pose proof (align_up_bounds (w_arena w) n K (conj (proj1 L) N)) as [B _]. specialize (I2 Hn). clear - I2 B. lia.
  - intros n Hn N. replace (a_size (w_arena w) - (a_ptr (w_arena w) - a_buf (w_arena w))) with (a_buf (w_arena w) + a_size (w_arena w) - a_ptr (w_arena w)) by lia.
    rewrite <- (Rm n Hn N). split; [intros (p & a & H & _); eauto|]. intros (p & a & H). exists p, a. split; [exact H|].
    unfold allocate in H. destruct (_ && _); [|destruct (a_out _); discriminate]. injection H as <- <-. lia.
Qed.
(** Chunks given back in another order than the reverse stay counted: here nothing is live and sixteen bytes are used. *)
Theorem C43_order_refuted : exists a w, arena_ok a /\ calls_ok (mkW a []) w /\ w_live w = [] /\ used (w_arena w) = 16.
Proof.
  set (a := arena_new 4096 64 4 true). exists a, (mkW (with_ptr a (4096 + 16)) []).
  split; [repeat split; vm_compute; congruence|]. split; [|split; reflexivity].
  eapply co_cons; [eapply co_cons; [eapply co_cons; [eapply co_cons; [apply co_nil|]|]|]|].
  - constructor; [apply (w_alloc_in (mkW a []) 7 4096 (with_ptr a (4096 + 16))); [lia|vm_compute; reflexivity]|].
    intros p n b [E|[]]. injection E as <- <- <-. vm_compute. congruence.
  - constructor; [apply (w_alloc_in (mkW (with_ptr a (4096 + 16)) [(4096, 7, false)]) 7 4112 (with_ptr a (4096 + 32))); [lia|vm_compute; reflexivity]|].
    intros p n b [E|[E|[]]]; injection E as <- <- <-; vm_compute; congruence.
  - constructor; [apply (w_free_in (mkW (with_ptr a (4096 + 32)) [(4112, 7, false); (4096, 7, false)]) [(4112, 7, false)] [] 4096 7 false (with_ptr a (4096 + 32))); vm_compute; reflexivity|].
    intros p n b [E|[]]; injection E as <- <- <-; vm_compute; congruence.
  - constructor; [apply (w_free_in (mkW (with_ptr a (4096 + 32)) [(4112, 7, false)]) [] [] 4112 7 false (with_ptr a (4096 + 16))); vm_compute; reflexivity|].
    intros p n b [].
Qed.
(** the bounds check accepts exactly the chunks inside the buffer, so every live chunk of the arena passes *)
Theorem C43_bounds_check : forall a p n, 0 <= n -> 
  (chunk_in_bounds a p n = true <-> a_buf a <= p /\ p + n <= a_buf a + a_size a).
Proof. intros a p n Hn. unfold chunk_in_bounds, pointer_in_buffer. lia. Qed.

(** Non-vacuity: a run with two arena chunks, one heap chunk and a release out of order. *)
Definition small := arena_new 4096 64 4 true.
Example C43_run : exists w, calls_ok (mkW small []) w /\
  w_live w = [(4112, 20, false); (9000, 33, true); (4096, 7, false)] /\ used (w_arena w) = 48.
Proof.
  assert (Ok : arena_ok small) by (repeat split; vm_compute; congruence).
  exists (mkW (with_ptr small (4096 + 48)) [(4112, 20, false); (9000, 33, true); (4096, 7, false)]).
  split; [|split; reflexivity].
  assert (S1 : calls_ok (mkW small []) (mkW (with_ptr small (4096 + 16)) [(4096, 7, false)])).
  { eapply co_cons; [apply co_nil|]. constructor.
    - apply (w_alloc_in (mkW small []) 7 4096 (with_ptr small (4096 + 16))); [lia|vm_compute; reflexivity].
    - intros p n b [E|[]]. injection E as <- <- <-. vm_compute. congruence. }
  assert (S2 : calls_ok (mkW small []) (mkW (with_ptr small (4096 + 48)) [(4112, 20, false); (4096, 7, false)])).
  { eapply co_cons; [exact S1|]. constructor.
    - apply (w_alloc_in (mkW (with_ptr small (4096 + 16)) [(4096, 7, false)]) 20 4112 (with_ptr small (4096 + 48))); [lia|vm_compute; reflexivity].
    - intros p n b [E|[E|[]]]; injection E as <- <- <-; vm_compute; congruence. }
  assert (S3 : calls_ok (mkW small []) (mkW (with_ptr small (4096 + 48)) [(9000, 33, true); (4112, 20, false); (4096, 7, false)])).
  { eapply co_cons; [exact S2|]. constructor.
    - apply (w_alloc_heap (mkW (with_ptr small (4096 + 48)) [(4112, 20, false); (4096, 7, false)]) 33 9000); [lia|vm_compute; reflexivity|].
      split; [lia|]. split; [right; vm_compute; congruence|]. intros p m [E|[E|[]]]; discriminate E.
    - intros p n b [E|[E|[E|[]]]]; injection E as <- <- <-; vm_compute; congruence. }
  assert (S4 : calls_ok (mkW small []) (mkW (with_ptr small (4096 + 16)) [(9000, 33, true); (4096, 7, false)])).
  { eapply co_cons; [exact S3|]. constructor.
    - apply (w_free_in (mkW (with_ptr small (4096 + 48)) [(9000, 33, true); (4112, 20, false); (4096, 7, false)])
              [(9000, 33, true)] [(4096, 7, false)] 4112 20 false); vm_compute; reflexivity.
    - intros p n b [E|[E|[]]]; injection E as <- <- <-; vm_compute; congruence. }
  eapply co_cons; [exact S4|]. constructor.
  - apply (w_alloc_in (mkW (with_ptr small (4096 + 16)) [(9000, 33, true); (4096, 7, false)]) 20 4112 (with_ptr small (4096 + 48))); [lia|vm_compute; reflexivity].
  - intros p n b [E|[E|[E|[]]]]; injection E as <- <- <-; vm_compute; congruence.
Qed.

(** Without the bound on requests the property fails: the largest request is rounded up to zero
    bytes and "granted" from the arena, at an address that the next request gets as well. *)
Theorem C43_huge_request_refuted :
  exists a n p a', arena_ok a /\ 0 <= n < 2 ^ 64 /\ allocate a n = InArena p a' /\
    ~ (p + n <= a_buf a + a_size a) /\ allocate a' 16 = InArena p (with_ptr a' (p + 16)).
Proof.
  exists small, (2 ^ 64 - 1), 4096, small.
  repeat split; try (vm_compute; congruence).
Qed.

Print Assumptions C43_chunks_never_overlap_partial.
Print Assumptions C43_chunk_location_partial.
Print Assumptions C43_returned_to_origin_partial.
Print Assumptions C43_last_chunk_reclaimed.
Print Assumptions C43_huge_request_refuted.
Print Assumptions C43_room_is_used_partial.
Print Assumptions C43_bounds_check.
Print Assumptions C43_used_partial.
Print Assumptions C43_order_refuted.

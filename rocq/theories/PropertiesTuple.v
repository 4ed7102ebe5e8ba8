(** * PropertiesTuple: C01-C06, C19, C39-C41, C48. *)
From Verif Require Import Base Tag Codec Gear GearBase GearProofs GearAlloc Tuple TupleMore TupleProofs TupleSteps
  TupleView TupleOps TupleHist TupleFacts.
From Coq Require Import ZifyBool ZifyNat Permutation.

(** ** Sample tuples and histories used as examples and counterexamples *)
Definition fd (g id : Z) : Z := g * 2048 + id.                     (* descriptor of a loose field *)
Definition blob (n : nat) (c : Z) : tv := mkV false (repeat c n).  (* n units *)
Definition vbin (n : nat) (c : Z) : tv := mkV false (Z.of_nat n :: repeat c (n - 1)). (* payload of a varbin *)
Definition nothing : tv := mkV true [].
Definition no_slots : nat -> Z := fun _ => 0.
Definition zeros : Z -> Z := fun _ => 0.
Definition new_tuple (units items : Z) : st := fresh units items 0 0 no_slots no_slots zeros.
(** one preplaced varbin *)
Definition new_tuple1 (units items : Z) : st := fresh units items 1 1 no_slots (fun _ => g_varbin) zeros.
(** descriptors with odd id are collections *)
Definition odd_multi (d : Z) : bool := Z.odd (descriptor2id d).

Definition sample : list op :=
  [OSet (fd g_varbin 2) true (vbin 3 7); OSet (fd g_u32 4) true (blob 1 5); OAppend (fd g_u16 1) true (blob 1 9);
   OAppend (fd g_u16 1) true (blob 1 8); OSlot 0 true (vbin 4 6); OSet (fd g_varbin 2) true (vbin 5 1);
   ORemove (fd g_u32 4); OErase 2; OSet (fd g_i64 6) true (blob 2 3); OSet (fd g_bin512 8) true (blob 16 3)].

(** states reached by the sample histories *)
Definition before9 : st := final (new_tuple1 40 6) (firstn 9 sample).
Lemma reach1 units items l : (0 <=? items) && (items + 1 <=? units) && (units <=? 65534) = true ->
  calm_runb odd_multi (new_tuple1 units items) l = true ->
  reached odd_multi (final (new_tuple1 units items) l).
Proof. intros H C. apply reached_final; [|exact C]. constructor; unfold no_slots, g_varbin; intros; lia. Qed.
Lemma reach0 units items l : (0 <=? items) && (items <=? units) && (units <=? 65534) = true ->
  calm_runb odd_multi (new_tuple units items) l = true ->
  reached odd_multi (final (new_tuple units items) l).
Proof. intros H C. apply reached_final; [|exact C]. constructor; unfold no_slots; intros; lia. Qed.
Ltac now_reach :=
  try unfold before9;
  match goal with
  | |- reached _ (final (new_tuple1 ?u ?i) ?l) => apply (reach1 u i l)
  | |- reached _ (final (new_tuple ?u ?i) ?l) => apply (reach0 u i l)
  end; vm_compute; reflexivity.

(** ** C01 *)
(** Positive: in every history of valid calls that does not run into one of the four listed
    slips, no call has undefined behaviour and every read gives the last successful write. *)
Theorem C01_read_your_writes_partial : forall multi units pvt ppu ns so st0 d l,
  fresh_ok units pvt ppu ns so st0 ->
  calm_run multi (fresh units pvt ppu ns so st0 d) l ->
  exists outs s', run asis (fresh units pvt ppu ns so st0 d) l = Some (outs, s') /\
    length outs = length l /\
    (forall desc, real_desc desc -> multi desc = false ->
       get_loose s' desc = last_write (KL desc) None (combine l outs)) /\
    (forall j, (j < ns)%nat -> get_slot s' j = last_write (KP j) None (combine l outs)).
Proof.
  intros multi units pvt ppu ns so st0 d l F C.
  destruct (history multi l _ (fresh_TInv _ _ _ _ _ _ d F) (fresh_uniq multi _ _ _ _ _ _ d) C)
    as (outs & s' & R & L & _ & _ & _ & G & _).
  exists outs, s'. split; [exact R|]. split; [exact L|]. split.
  - intros desc Hd Hm. exact (G (KL desc) (conj Hd Hm)).
  - intros j Hj. exact (G (KP j) Hj).
Qed.
Example C01_case :
  calm_run odd_multi (new_tuple1 20 5) sample /\
  run asis (new_tuple1 20 5) sample =
    Some ([true; true; true; true; true; true; true; true; true; false], final (new_tuple1 20 5) sample) /\
  get_loose (final (new_tuple1 20 5) sample) (fd g_varbin 2) = Some [5; 1; 1; 1; 1] /\
  get_loose (final (new_tuple1 20 5) sample) (fd g_u32 4) = None /\
  get_loose (final (new_tuple1 20 5) sample) (fd g_i64 6) = Some [3; 3] /\
  get_slot (final (new_tuple1 20 5) sample) 0 = Some [4; 6; 6; 6].
Proof.
  split; [apply calm_runb_ok; vm_compute; reflexivity|].
  split; [apply run_final; vm_compute; reflexivity|]. vm_compute. repeat split.
Qed.

(** The same holds from any state the calm histories lead to. *)
Theorem C01_continuation_partial : forall multi s l,
  reached multi s -> calm_run multi s l ->
  exists outs s', run asis s l = Some (outs, s') /\
    (forall desc, real_desc desc -> multi desc = false ->
       get_loose s' desc = last_write (KL desc) (get_loose s desc) (combine l outs)) /\
    (forall j, (j < nslots s)%nat -> get_slot s' j = last_write (KP j) (get_slot s j) (combine l outs)).
Proof.
  intros multi s l R C. destruct (reached_inv multi s R) as [T U].
  destruct (history multi l s T U C) as (outs & s' & E & _ & _ & _ & _ & G & _).
  exists outs, s'. split; [exact E|]. split.
  - intros desc Hd Hm. exact (G (KL desc) (conj Hd Hm)).
  - intros j Hj. exact (G (KP j) Hj).
Qed.

(** No proviso is needed for histories that only add fields and overwrite fields of fixed size
    (tokens that distinguish null): whatever the sizes, the order and the number of calls. *)
Theorem C01_adding_only_partial : forall multi units pvt ppu ns so st0 d l,
  fresh_ok units pvt ppu ns so st0 ->
  Forall (fun o => valid_add multi o /\ adds o = true) l ->
  exists outs s', run asis (fresh units pvt ppu ns so st0 d) l = Some (outs, s') /\
    length outs = length l /\
    (forall desc, real_desc desc -> multi desc = false ->
       get_loose s' desc = last_write (KL desc) None (combine l outs)).
Proof.
  intros multi units pvt ppu ns so st0 d l F A.
  pose proof (adds_calm_run multi l _ (fresh_TInv _ _ _ _ _ _ d F) (fresh_uniq multi _ _ _ _ _ _ d) eq_refl eq_refl A) as C.
  destruct (C01_read_your_writes_partial multi units pvt ppu ns so st0 d l F C) as (outs & s' & R & L & G & _).
  exists outs, s'. auto.
Qed.
Example C01_adding_case : Forall (fun o => valid_add odd_multi o /\ adds o = true)
  [OSet (fd g_i64 6) true (blob 2 3); OAppend (fd g_varbin 1) true (vbin 300 4); OSet (fd g_i64 6) true (blob 2 4)].
Proof.
  repeat constructor; try (vm_compute; discriminate); vm_compute; try reflexivity; try congruence.
Qed.

(** Without that proviso the property is false of the code: after removing a 32-byte field, two
    further inserts overwrite an unrelated 4-byte field (gear.cxx:300). *)
Definition split_history : list op :=
  [OSet (fd g_bin256 1) true (blob 8 1); OSet (fd g_u32 2) true (blob 1 2); ORemove (fd g_bin256 1);
   OSet (fd g_u32 3) true (blob 1 3); OSet (fd g_bin224 4) true (blob 7 4)].
Theorem C01_read_your_writes_refuted : exists l outs s',
  run asis (new_tuple 60 6) l = Some (outs, s') /\ outs = repeat true (length l) /\
  last_write (KL (fd g_u32 2)) None (combine l outs) = Some [2] /\
  get_loose s' (fd g_u32 2) = Some [4].
Proof.
  exists split_history, (repeat true 5), (final (new_tuple 60 6) split_history).
  split; [apply run_final; vm_compute; reflexivity|]. vm_compute. repeat split.
Qed.

(** Removing a field of 2053 units is undefined behaviour: the hole that replaces it keeps its size
    in 11 bits, so that its header turns into that of a text field (field.h:432-434), and the
    following search for the only hole leaves the index (gear.cxx:149-168). *)
Theorem C01_big_removal_refuted : exists o1 o2,
  validb odd_multi (new_tuple 4000 2) o1 = true /\
  option_map fst (run asis (new_tuple 4000 2) [o1]) = Some [true] /\
  o2 = ORemove (fd g_varbin 2) /\ run asis (new_tuple 4000 2) [o1; o2] = None.
Proof.
  exists (OSet (fd g_varbin 2) true (vbin 2053 7)), (ORemove (fd g_varbin 2)).
  split; [vm_compute; reflexivity|]. split; [vm_compute; reflexivity|]. split; [reflexivity|vm_compute; reflexivity].
Qed.

(** ** C02 *)
(** A successful call changes no field except the one it addresses, and creates at most one field,
    which is the one that was asked for.  [field s r] is descriptor and contents of the field at
    place [r] (an index slot or a preplaced reference). *)
Theorem C02_frame_partial : forall multi s o s',
  reached multi s -> valid multi s o -> calm s o = true -> run1 asis s o = Ok tt s' ->
  (forall r x, field s r = Some x -> ~ addressed s o r -> field s' r = Some x) /\
  (forall r x, field s r = None -> field s' r = Some x -> creates o x) /\
  (forall r1 r2, field s r1 = None -> field s r2 = None -> field s' r1 <> None -> field s' r2 <> None -> r1 = r2).
Proof.
  intros multi s o s' R V C E. destruct (reached_inv multi s R) as [T U].
  exact (step_framed multi s o s' T V C E).
Qed.
Example C02_case : exists s,
  reached odd_multi s /\ valid odd_multi s (OErase 2) /\ calm s (OErase 2) = true /\
  run1 asis s (OErase 2) = Ok tt (final s [OErase 2]) /\
  field s (RL 2) = Some (fd g_u16 1, [9]) /\ field s (RL 3) = Some (fd g_u16 1, [8]) /\
  field (final s [OErase 2]) (RL 2) = None /\ field (final s [OErase 2]) (RL 3) = Some (fd g_u16 1, [8]).
Proof.
  exists (final (new_tuple1 40 6) (firstn 7 sample)). split; [now_reach|].
  split; [apply validb_ok; vm_compute; reflexivity|]. split; [vm_compute; reflexivity|].
  split; [apply run1_final; vm_compute; reflexivity|]. vm_compute. repeat split.
Qed.
Theorem C02_frame_refuted : exists s o s' r x,
  run asis (new_tuple 60 6) (firstn 4 split_history) = Some (repeat true 4, s) /\
  run1 asis s o = Ok tt s' /\ field s r = Some x /\ ~ addressed s o r /\ field s' r <> Some x.
Proof.
  exists (final (new_tuple 60 6) (firstn 4 split_history)), (OSet (fd g_bin224 4) true (blob 7 4)).
  eexists. exists (RL 1), (fd g_u32 2, [2]).
  split; [apply run_final; vm_compute; reflexivity|]. split; [apply run1_final; vm_compute; reflexivity|].
  split; [vm_compute; reflexivity|].
  split; [|vm_compute; discriminate].
  intros (k & Hk & _). vm_compute in Hk. discriminate.
Qed.

(** ** C03 *)
Theorem C03_failed_write_noop_partial : forall multi s o s',
  reached multi s -> valid multi s o -> calm s o = true -> run1 asis s o = Throw s' -> s' = s.
Proof.
  intros multi s o s' R V C E. destruct (reached_inv multi s R) as [T U].
  pose proof (step multi s o T U V C) as St. rewrite E in St. exact St.
Qed.
Example C03_case : exists s o, reached odd_multi s /\ valid odd_multi s o /\ calm s o = true /\
  run1 asis s o = Throw (final s [o]) /\ jv s = 2.
Proof.
  exists (final (new_tuple1 20 5) (firstn 9 sample)), (OSet (fd g_bin512 8) true (blob 16 3)). split; [now_reach|].
  split; [apply validb_ok; vm_compute; reflexivity|]. split; [vm_compute; reflexivity|].
  split; [apply run1_failed; vm_compute; reflexivity|vm_compute; reflexivity].
Qed.
(** Creating a field that does not fit leaves the tuple alone in any state whatsoever. *)
Theorem C03_failed_insert_noop : forall s desc disc v s',
  lookup_gid s desc = None ->
  run1 asis s (OSet desc disc v) = Throw s' \/ run1 asis s (OAppend desc disc v) = Throw s' -> s' = s.
Proof. exact failed_insert_noop. Qed.
Example C03_failed_insert_case :
  lookup_gid (new_tuple 4 2) (fd g_bin96 1) = None /\
  run1 asis (new_tuple 4 2) (OSet (fd g_bin96 1) true (blob 3 1)) = Throw (new_tuple 4 2).
Proof. split; vm_compute; reflexivity. Qed.
(** Emptying a preplaced variable-length field may fail for lack of an index slot, after the junk
    counter has been increased (gear.cxx:391 before 416). *)
Definition slot_history : list op :=
  [OSlot 0 true (vbin 3 7); OSet (fd g_u32 2) true (blob 1 5)].
Theorem C03_failed_slot_release_refuted : exists s s',
  run asis (new_tuple1 20 1) slot_history = Some ([true; true], s) /\
  valid odd_multi s (OSlot 0 false nothing) /\
  run1 asis s (OSlot 0 false nothing) = Throw s' /\ jv s = 0 /\ jv s' = 3.
Proof.
  exists (final (new_tuple1 20 1) slot_history). eexists.
  split; [apply run_final; vm_compute; reflexivity|]. split; [apply validb_ok; vm_compute; reflexivity|].
  split; [apply run1_failed; vm_compute; reflexivity|]. vm_compute. repeat split.
Qed.

(** ** C04 *)
Theorem C04_payload_placement_partial : forall multi s, reached multi s ->
  (forall r, live s r -> 0 < plen s r ->
     pivot s + pp s <= raddr s r /\ raddr s r + plen s r <= tail s /\ tail s <= end_ s) /\
  (forall r r' x, live s r -> live s r' -> r <> r' ->
     raddr s r <= x < raddr s r + plen s r -> raddr s r' <= x < raddr s r' + plen s r' -> False).
Proof. intros multi s R. destruct (reached_inv multi s R) as [T _]. exact (placement s T). Qed.
Example C04_case : exists s, reached odd_multi s /\ live s (RL 0) /\ live s (RP 0) /\
  plen s (RL 0) = 5 /\ plen s (RP 0) = 4.
Proof.
  exists (final (new_tuple1 40 6) sample). split; [now_reach|].
  split; [apply liveb_iff; vm_compute; reflexivity|]. split; [apply liveb_iff; vm_compute; reflexivity|].
  split; vm_compute; reflexivity.
Qed.
Theorem C04_overlap_refuted : exists s r r' x,
  run asis (new_tuple 60 6) split_history = Some (repeat true 5, s) /\
  live s r /\ live s r' /\ r <> r' /\
  raddr s r <= x < raddr s r + plen s r /\ raddr s r' <= x < raddr s r' + plen s r'.
Proof.
  exists (final (new_tuple 60 6) split_history), (RL 0), (RL 1), 14.
  split; [apply run_final; vm_compute; reflexivity|].
  split; [apply liveb_iff; vm_compute; reflexivity|]. split; [apply liveb_iff; vm_compute; reflexivity|].
  split; [congruence|]. vm_compute. repeat split; congruence.
Qed.
(** A field is taken for a hole: with at least 2048 units of junk and a full index, growing a field to
    2050 units looks for a hole of exactly that size, and the tag of that hole, cut to 16 bits
    (essentials.h:330, gear.cxx:121-124), is the tag of the text field with id 2.  The text is lost and
    the new value is written from its place to far behind the end of the buffer. *)
Definition wide_history : list op :=
  [OSet (fd g_varbin 2) true (vbin 1200 1); OSet (fd g_u32 4) true (blob 1 5); OSet (fd g_varbin 6) true (vbin 1200 2);
   OSet (fd g_text 2) true (blob 1 0x63626103); OSet (fd g_varbin 8) true (vbin 2 3);
   ORemove (fd g_varbin 2); ORemove (fd g_varbin 6)].
Definition junky : st := final (new_tuple 2500 5) wide_history.
Theorem C04_wide_search_refuted : exists s o s' r,
  reached odd_multi s /\ valid odd_multi s o /\ o = OSet (fd g_varbin 8) true (vbin 2050 4) /\
  run1 asis s o = Ok tt s' /\ live s' r /\ plen s' r = 2050 /\ tail s' < end_ s' /\
  end_ s' + 1900 < raddr s' r + plen s' r /\
  get_loose s (fd g_text 2) = Some [0x63626103] /\ get_loose s' (fd g_text 2) = None.
Proof.
  exists junky, (OSet (fd g_varbin 8) true (vbin 2050 4)), (final junky [OSet (fd g_varbin 8) true (vbin 2050 4)]), (RL 4).
  split; [unfold junky; now_reach|]. split; [apply validb_ok; vm_compute; reflexivity|]. split; [reflexivity|].
  split; [apply run1_final; vm_compute; reflexivity|]. split; [apply liveb_iff; vm_compute; reflexivity|].
  split; [vm_compute; reflexivity|]. split; [apply Z.ltb_lt; vm_compute; reflexivity|].
  split; [apply Z.ltb_lt; vm_compute; reflexivity|]. split; vm_compute; reflexivity.
Qed.
(** The calm histories include such states: the junk as a whole is not limited, only a single hole is. *)
Example C04_junk_case : reached odd_multi junky /\ jc junky = 2 /\ jv junky = 2400 /\
  calm junky (OSet (fd g_varbin 8) true (vbin 2049 4)) = true /\ calm junky (ORemove (fd g_u32 4)) = false /\
  calm junky (ORemove (fd g_text 2)) = true.
Proof. split; [unfold junky; now_reach|]. split; [vm_compute; reflexivity|]. split; [vm_compute; reflexivity|].
  split; [vm_compute; reflexivity|]. split; vm_compute; reflexivity. Qed.
(** Every write to the data area stays inside the payload of the field that is being written. *)
Theorem C04_writes_stay_inside_partial : forall multi s o s' x,
  reached multi s -> valid multi s o -> calm s o = true -> run1 asis s o = Ok tt s' ->
  dat s' x <> dat s x ->
  exists r, live s' r /\ raddr s' r <= x < raddr s' r + plen s' r /\
            pivot s' + pp s' <= x < tail s' /\ tail s' <= end_ s'.
Proof.
  intros multi s o s' x R V C E. destruct (reached_inv multi s R) as [T U].
  exact (writes_inside multi s o s' x T U V C E).
Qed.

(** ** C05 *)
Theorem C05_counters_exact_partial : forall multi s, reached multi s ->
  jc s = sumn (cnt s) (hcount s) /\ jv s = sumn (cnt s) (hvol s) /\
  sumn (cnt s) (live_len s) + sumn (nslots s) (fun j => plen s (RP j)) + jv s + tail_space s =
    end_ s - pivot s - pp s /\
  sumn (cnt s) (live_one s) + jc s + head_space s = pivot s /\
  0 <= tail_space s /\ 0 <= head_space s.
Proof. intros multi s R. destruct (reached_inv multi s R) as [T _]. exact (accounting s T). Qed.
Example C05_case : exists s, reached odd_multi s /\ jc s = 1 /\ jv s = 2 /\ tail_space s = 20 /\ cnt s = 4%nat.
Proof. exists before9. split; [now_reach|]. vm_compute. repeat split. Qed.
Theorem C05_counters_exact_refuted : exists s s',
  run asis (new_tuple1 20 1) slot_history = Some ([true; true], s) /\
  run1 asis s (OSlot 0 false nothing) = Throw s' /\ jv s' <> sumn (cnt s') (hvol s').
Proof.
  exists (final (new_tuple1 20 1) slot_history). eexists.
  split; [apply run_final; vm_compute; reflexivity|].
  split; [apply run1_failed; vm_compute; reflexivity|]. vm_compute. discriminate.
Qed.
(** [netto_size()] subtracts units from bytes: it should be the size of the tuple without junk. *)
Theorem C05_netto_size_refuted : exists s, reached odd_multi s /\
  netto_size s <> 4 * (1 + sumn (cnt s) (live_one s) + pp s + sumn (cnt s) (live_len s) +
                       sumn (nslots s) (fun j => plen s (RP j))).
Proof. exists before9. split; [now_reach|]. vm_compute. discriminate. Qed.
(** [brutto_size()] is right, and so would [brutto_size() - 4 * junk_units()] be. *)
Theorem C05_brutto_size_partial : forall multi s, reached multi s ->
  brutto_size s - 4 * junk_units s =
    4 * (1 + sumn (cnt s) (live_one s) + pp s + sumn (cnt s) (live_len s) + sumn (nslots s) (fun j => plen s (RP j))).
Proof.
  intros multi s R. destruct (reached_inv multi s R) as [T _]. destruct (accounting s T) as (_ & _ & A & B & _).
  unfold brutto_size, junk_units, head_, tail_space, head_space in *. lia.
Qed.

(** ** C06 *)
(** Creating a field of [u] units succeeds when [u] units are free at the tail and an index slot
    is free, and likewise when some hole has exactly the needed size. *)
Theorem C06_insert_succeeds_partial : forall multi s desc disc v,
  reached multi s -> valid multi s (OSet desc disc v) -> calm s (OSet desc disc v) = true ->
  lookup_gid s desc = None ->
  (new_units desc v <= tail_space s /\ 1 <= head_space s) \/
  (exists k, nzh s k /\ hunits (idx s k) = new_units desc v) ->
  exists s', run1 asis s (OSet desc disc v) = Ok tt s'.
Proof.
  intros multi s desc disc v R V C L H. destruct (reached_inv multi s R) as [T U].
  exact (insert_succeeds multi s desc disc v T V C L H).
Qed.
Example C06_case : exists s desc v,
  reached odd_multi s /\ valid odd_multi s (OSet desc true v) /\ calm s (OSet desc true v) = true /\
  lookup_gid s desc = None /\ new_units desc v <= tail_space s /\ 1 <= head_space s /\ jv s = 2.
Proof.
  exists (final (new_tuple1 40 7) (firstn 9 sample)), (fd g_bin96 2), (blob 3 1). split; [now_reach|].
  split; [apply validb_ok; vm_compute; reflexivity|]. vm_compute. repeat split; congruence.
Qed.
(** Growing the last payload fails although the free space behind it is sufficient, as soon as
    there is junk anywhere (gear.cxx:431-631). *)
Definition grow_history : list op :=
  [OSet (fd g_varbin 2) true (vbin 3 7); OSet (fd g_u32 4) true (blob 1 5); OSet (fd g_varbin 6) true (vbin 3 7);
   ORemove (fd g_varbin 2)].
Theorem C06_grow_at_tail_refuted : exists s,
  run asis (new_tuple 16 5) grow_history = Some (repeat true 4, s) /\
  raddr s (RL 2) + plen s (RL 2) = tail s /\ plen s (RL 2) = 3 /\ tail_space s = 4 /\ 1 <= head_space s /\
  run1 asis s (OSet (fd g_varbin 6) true (vbin 6 1)) = Throw s.
Proof.
  exists (final (new_tuple 16 5) grow_history). split; [apply run_final; vm_compute; reflexivity|].
  assert (E : run1 asis (final (new_tuple 16 5) grow_history) (OSet (fd g_varbin 6) true (vbin 6 1)) =
    Throw (final (final (new_tuple 16 5) grow_history) [OSet (fd g_varbin 6) true (vbin 6 1)]))
    by (apply run1_failed; vm_compute; reflexivity).
  rewrite E. split; [vm_compute; reflexivity|]. split; [vm_compute; reflexivity|].
  split; [vm_compute; reflexivity|]. split; [vm_compute; congruence|].
  apply (f_equal (@Throw unit)).
  refine (C03_failed_write_noop_partial odd_multi _ (OSet (fd g_varbin 6) true (vbin 6 1)) _ _ _ _ E).
  - now_reach.
  - apply validb_ok. vm_compute. reflexivity.
  - vm_compute. reflexivity.
Qed.

(** ** C19 *)
(** loose fields and preplaced variable-length fields: what reading gives after any history *)
Theorem C19_loose_reads_partial : forall multi units pvt ppu ns so st0 d l desc disc,
  fresh_ok units pvt ppu ns so st0 ->
  calm_run multi (fresh units pvt ppu ns so st0 d) l -> real_desc desc -> multi desc = false ->
  exists outs s', run asis (fresh units pvt ppu ns so st0 d) l = Some (outs, s') /\
    read_loose s' desc disc =
      match last_write (KL desc) None (combine l outs) with
      | Some p => RVal p
      | None => if disc then RAbsent else REmpty
      end.
Proof.
  intros multi units pvt ppu ns so st0 d l desc disc F C Hd Hm.
  destruct (C01_read_your_writes_partial multi units pvt ppu ns so st0 d l F C) as (outs & s' & R & _ & G & _).
  exists outs, s'. split; [exact R|]. unfold read_loose. rewrite (G desc Hd Hm). reflexivity.
Qed.
(** an empty value written to a non-distinguishing field removes it; written to a distinguishing
    one it is stored *)
Theorem C19_empty_removes : forall desc v, v_empty v = true -> wrote (KL desc) (OSet desc false v) = Some None.
Proof. exact empty_removes. Qed.
Theorem C19_empty_stored : forall desc v, pay v <> [] -> wrote (KL desc) (OSet desc true v) = Some (Some (pay v)).
Proof. exact empty_stored. Qed.
Theorem C19_nonempty_stored : forall desc disc v, v_empty v = false -> pay v <> [] ->
  wrote (KL desc) (OSet desc disc v) = Some (Some (pay v)).
Proof. exact nonempty_stored. Qed.
(** preplaced fields of fixed size *)
Theorem C19_fixed_preplaced : forall g m off v m', 4 <= g <= 30 -> length v = Z.to_nat (preplaced_bytes g) ->
  (forall disc, fixed_set g disc m off v = Some m' ->
     fixed_get g false m' off = RVal v /\
     fixed_get g true m' off = if list_eq_dec Z.eq_dec (firstn (Z.to_nat (denil_len g)) v) (denil g) then RAbsent else RVal v) /\
  fixed_get g true (fixed_erase g true m off) off = RAbsent /\
  fixed_get g false (fixed_erase g false m off) off = RVal (repeat 0 (Z.to_nat (preplaced_bytes g))).
Proof. exact fixed_preplaced_table. Qed.
Example C19_fixed_case :
  fixed_get g_i16 true (pwrite zeros 4 [0; 128]) 4 = RAbsent /\
  fixed_get g_i16 false (pwrite zeros 4 [0; 128]) 4 = RVal [0; 128] /\
  fixed_get g_i16 true (pwrite zeros 4 [1; 128]) 4 = RVal [1; 128].
Proof. vm_compute. repeat split. Qed.
(** a network address is absent exactly when all its 17 bytes are zero, an ip address when its 16 are;
    the three bytes of padding behind a network address do not matter *)
Theorem C19_address_reserved : forall m off,
  (fixed_get g_ipnet true m off = RAbsent <-> pread m off 17 = repeat 0 17) /\
  (fixed_get g_ip true m off = RAbsent <-> pread m off 16 = repeat 0 16).
Proof.
  intros m off. unfold fixed_get, is_denil. cbn [andb].
  change (denil_len g_ipnet) with 17. change (denil g_ipnet) with (repeat 0 17). change (denil_len g_ip) with 16. change (denil g_ip) with (repeat 0 16).
  split; match goal with |- context [list_eq_dec ?a ?b ?c] => destruct (list_eq_dec a b c) as [E|E] end; intuition congruence.
Qed.
Example C19_address_case : fixed_get g_ipnet true (pwrite zeros 17 [7; 7; 7]) 0 = RAbsent /\ fixed_get g_ipnet true (pwrite zeros 16 [7]) 0 <> RAbsent.
Proof. split; [reflexivity|vm_compute; discriminate]. Qed.
Theorem C19_fixed_preplaced_frame : forall g disc m m' off v off' n, 
  fixed_set g disc m off v = Some m' ->
  (off' + n <= off \/ off + Z.of_nat (length v) <= off') -> pread m' off' n = pread m off' n.
Proof. exact fixed_set_frame. Qed.

(** ** C39 *)
(** After any history the members of a collection are, as a multiset, what the sequence of
    successful inserts and erasures leaves. *)
Theorem C39_collection_multiset_partial : forall multi units pvt ppu ns so st0 d l desc,
  fresh_ok units pvt ppu ns so st0 ->
  calm_run multi (fresh units pvt ppu ns so st0 d) l -> real_desc desc -> multi desc = true ->
  exists outs s', run asis (fresh units pvt ppu ns so st0 d) l = Some (outs, s') /\
    Permutation (view s' desc) (bag_run desc [] (trace asis (fresh units pvt ppu ns so st0 d) l)).
Proof.
  intros multi units pvt ppu ns so st0 d l desc F C Hd Hm.
  destruct (history multi l _ (fresh_TInv _ _ _ _ _ _ d F) (fresh_uniq multi _ _ _ _ _ _ d) C)
    as (outs & s' & R & _ & _ & _ & _ & _ & B).
  exists outs, s'. split; [exact R|]. apply B; auto. 
Qed.
Definition bag_history : list op :=
  [OAppend (fd g_u32 1) true (blob 1 9); OAppend (fd g_u32 1) true (blob 1 8); OSet (fd g_u32 2) true (blob 1 1);
   OAppend (fd g_u32 1) true (blob 1 9); OAppend (fd g_u16 3) true (blob 1 4); OErase 1; OAppend (fd g_u32 1) true (blob 1 7)].
Example C39_case :
  calm_run odd_multi (new_tuple 40 6) bag_history /\
  run asis (new_tuple 40 6) bag_history = Some (repeat true 7, final (new_tuple 40 6) bag_history) /\
  view (final (new_tuple 40 6) bag_history) (fd g_u32 1) = [[9]; [7]; [9]] /\
  bag_run (fd g_u32 1) [] (trace asis (new_tuple 40 6) bag_history) = [[7]; [9]; [9]].
Proof.
  split; [apply calm_runb_ok; vm_compute; reflexivity|].
  split; [apply run_final; vm_compute; reflexivity|]. vm_compute. repeat split.
Qed.
Theorem C39_collection_refuted : exists l s',
  run asis (new_tuple 60 6) l = Some (repeat true (length l), s') /\
  ~ Permutation (view s' (fd g_u32 1)) (bag_run (fd g_u32 1) [] (trace asis (new_tuple 60 6) l)).
Proof.
  exists [OSet (fd g_bin256 2) true (blob 8 1); OAppend (fd g_u32 1) true (blob 1 2); ORemove (fd g_bin256 2);
          OSet (fd g_u32 4) true (blob 1 3); OSet (fd g_bin224 4) true (blob 7 4)].
  eexists. split; [apply run_final; vm_compute; reflexivity|].
  vm_compute. intros H. apply Permutation_length_1 in H. discriminate.
Qed.

(** ** C40 *)
Theorem C40_clear_partial : forall multi s s', reached multi s -> reset s = Some s' ->
  TInv s' /\ (forall desc, get_loose s' desc = None) /\ (forall j, get_slot s' j = None) /\
  tail_space s' = end_ s - pivot s - pp s /\ head_space s' = pivot s /\ junk_units s' = 0 /\ end_ s' = end_ s.
Proof. intros multi s s' R E. destruct (reached_inv multi s R) as [T _]. exact (reset_spec s s' T E). Qed.
Theorem C40_clear_succeeds : forall multi s, reached multi s -> (reset s <> None <-> 1 <= pivot s <= 8191).
Proof.
  intros multi s R. destruct (reached_inv multi s R) as [T _]. split; [|exact (reset_ok s T)]. intros N.
  destruct (Z_lt_ge_dec (pivot s) 1) as [L|L]; [exfalso; apply N; unfold reset; replace (pivot s <? 1) with true by lia; reflexivity|].
  destruct (Z_lt_ge_dec 8191 (pivot s)) as [G|G]; [exfalso; apply N; unfold reset, max_fields; replace (pivot s >? 8191) with true by lia; rewrite orb_true_r; reflexivity|]. lia.
Qed.
Theorem C40_clear_refuted : exists s, reached odd_multi s /\ cnt s = 0%nat /\ reset s = None.
Proof.
  exists (final (new_tuple 10 0) []). split; [now_reach|split; reflexivity].
Qed.
Example C40_case : exists s, reached odd_multi s /\ 1 <= pivot s <= 8191 /\ cnt s = 4%nat /\ jv s = 2.
Proof. exists before9. split; [now_reach|]. vm_compute. repeat split; congruence. Qed.

(** ** C41 *)
(** loose fields: the answer is right whenever the field is of fixed size or has a payload *)
Theorem C41_loose_presence : forall multi s desc, reached multi s -> real_desc desc ->
  (exist_loose s desc = false -> read_loose s desc true = RAbsent) /\
  (exist_loose s desc = true -> fixed_genus (descriptor2genus desc) = true -> read_loose s desc true <> RAbsent).
Proof. intros multi s desc R Hd. destruct (reached_inv multi s R) as [T _]. exact (loose_presence s desc T Hd). Qed.
(** preplaced fields: the answer is always the wrong one *)
Theorem C41_preplaced_presence_inverted : forall g m off,
  exist_fixed g true m off = true <-> fixed_get g true m off = RAbsent.
Proof. exact fixed_inverted. Qed.
Theorem C41_slot_presence_inverted : forall s j, exist_slot s j = true <-> read_slot s j true = RAbsent.
Proof. exact slot_inverted. Qed.
Theorem C41_presence_refuted : exists s, reached odd_multi s /\ exist_slot s 0 = false /\
  read_slot s 0 true = RVal [4; 6; 6; 6].
Proof. exists (final (new_tuple1 40 6) sample). split; [now_reach|]. vm_compute. repeat split. Qed.
(** and so erasing a preplaced field by its token never removes anything *)
Theorem C41_erase_by_token_keeps : forall s j, get_slot s j <> None -> erase_token_slot s j = Ok false s.
Proof. exact erase_slot_keeps. Qed.
Theorem C41_erase_fixed_by_token_keeps : forall g m off,
  fixed_get g true m off <> RAbsent -> erase_token_fixed g true m off = (false, m).
Proof. exact erase_fixed_keeps. Qed.
Theorem C41_erase_fixed_plain_keeps : forall g m off, erase_token_fixed g false m off = (false, m).
Proof. reflexivity. Qed.

(** and what it reports is inverted: "removed" exactly when there was nothing *)
Theorem C41_erase_reports_refuted : 
  (forall s j, get_slot s j = None -> erase_token_slot s j = Ok true s) /\
  (forall g m off, fst (erase_token_fixed g true m off) = true <-> fixed_get g true m off = RAbsent).
Proof.
  split.
  - intros s j H. unfold erase_token_slot, exist_slot, slot_is_null, erase_slot, rrel. unfold get_slot in H. destruct (pre s j =? 0); [reflexivity|discriminate].
  - intros g m off. unfold erase_token_fixed. rewrite <- fixed_inverted. destruct (exist_fixed g true m off); cbn [fst]; intuition congruence.
Qed.
Example C41_erase_reports_case : reached odd_multi (final (new_tuple1 40 6) []) /\ get_slot (final (new_tuple1 40 6) []) 0 = None /\ fixed_get g_u32 true zeros 4 = RAbsent.
Proof. split; [now_reach|vm_compute; split; reflexivity]. Qed.

(** ** C48: [empty()] and [loose_count()] *)
Theorem C48_empty_exact : forall multi s, reached multi s -> pp s = 0 ->
  (tuple_empty s = true <-> forall r, field s r = None).
Proof. intros multi s R P. destruct (reached_inv multi s R) as [T _]. exact (empty_fields s T P). Qed.
Theorem C48_count_exact : forall multi s, reached multi s -> loose_count s = sumn (cnt s) (live_one s).
Proof. intros multi s R. destruct (reached_inv multi s R) as [T _]. exact (count_live s T). Qed.
Example C48_case : exists s, reached odd_multi s /\ pp s = 0 /\ tuple_empty s = false /\ loose_count s = 5.
Proof. exists (final (new_tuple 40 6) bag_history). split; [now_reach|]. vm_compute. repeat split. Qed.

Print Assumptions C01_read_your_writes_partial.
Print Assumptions C01_continuation_partial.
Print Assumptions C01_adding_only_partial.
Print Assumptions C01_read_your_writes_refuted.
Print Assumptions C01_big_removal_refuted.
Print Assumptions C02_frame_partial.
Print Assumptions C02_frame_refuted.
Print Assumptions C03_failed_write_noop_partial.
Print Assumptions C03_failed_insert_noop.
Print Assumptions C03_failed_slot_release_refuted.
Print Assumptions C04_payload_placement_partial.
Print Assumptions C04_overlap_refuted.
Print Assumptions C04_wide_search_refuted.
Print Assumptions C04_writes_stay_inside_partial.
Print Assumptions C05_counters_exact_partial.
Print Assumptions C05_counters_exact_refuted.
Print Assumptions C05_netto_size_refuted.
Print Assumptions C05_brutto_size_partial.
Print Assumptions C06_insert_succeeds_partial.
Print Assumptions C06_grow_at_tail_refuted.
Print Assumptions C19_loose_reads_partial.
Print Assumptions C19_empty_removes.
Print Assumptions C19_empty_stored.
Print Assumptions C19_nonempty_stored.
Print Assumptions C19_fixed_preplaced.
Print Assumptions C19_fixed_preplaced_frame.
Print Assumptions C39_collection_multiset_partial.
Print Assumptions C39_collection_refuted.
Print Assumptions C40_clear_partial.
Print Assumptions C40_clear_succeeds.
Print Assumptions C40_clear_refuted.
Print Assumptions C41_loose_presence.
Print Assumptions C41_preplaced_presence_inverted.
Print Assumptions C41_slot_presence_inverted.
Print Assumptions C41_presence_refuted.
Print Assumptions C19_address_reserved.
Print Assumptions C41_erase_reports_refuted.
Print Assumptions C41_erase_by_token_keeps.
Print Assumptions C41_erase_fixed_by_token_keeps.
Print Assumptions C41_erase_fixed_plain_keeps.
Print Assumptions C48_empty_exact.
Print Assumptions C48_count_exact.

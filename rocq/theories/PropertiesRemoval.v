(** * PropertiesRemoval: C87. *)
From Verif Require Import Base Tag TagProofs Codec Gear GearBase GearSearch GearProofs GearMerge GearAlloc GearRealloc GearResize Tuple TupleProofs TupleSteps TupleView TupleOps TupleMore
  TupleHist TupleFacts PropertiesTuple Hippeus Scan Audit Image ImageProofs PropertiesImage GearOpt GearOptProofs PropertiesOpt Growth GrowthProofs PropertiesGrowth PropertiesPolicy
  Removal RemovalProofs.
From Coq Require Import ZifyBool ZifyNat Permutation.
Ltac Zify.zify_post_hook ::= Z.div_mod_to_equations.

(** ** When the removal of a preplaced field is refused *)
(** [clears o j]: the call removes the field in the slot [j], or sets it to an empty value that is
    not to be told from its absence.  It is refused exactly if the field is set, its payload is
    neither the last one nor next to a hole, and the index has neither room nor an empty hole. *)
Theorem C87_refused_exactly : forall multi s o j, lived multi s -> (j < nslots s)%nat -> clears o j ->
  ((exists s', run1 asis s o = Throw s') <->
   get s (KP j) <> None /\ raddr s (RP j) + plen s (RP j) <> tail s /\
   (forall k, nzh s k -> hole_end s k <> raddr s (RP j) /\ hole_begin s k <> raddr s (RP j) + plen s (RP j)) /\
   Z.of_nat (cnt s) >= pivot s /\ (forall k, (k < cnt s)%nat -> is_hole (idx s k) = true -> hunits (idx s k) <> 0)).
Proof.
  intros multi s o j W Hj C. destruct (lived_inv multi s W) as [T _]. rewrite (clears_run s o j T Hj C).
  destruct (refused_iff s j T Hj) as [Q _]. rewrite Q. unfold lonely, index_full, head_space.
  assert (G : rrel s (RP j) <> 0 <-> get s (KP j) <> None).
  { cbn [get rrel]. unfold get_slot. destruct (pre s j =? 0) eqn:E; split; intros H; try congruence; lia. }
  rewrite G. split; intros (H1 & H2 & H3 & H4 & H5); repeat split; auto; try apply H3; auto; lia.
Qed.
Definition clear0 : op := OSlot 0 false (mkV true []).
Example C87_refused_case : lived odd_multi slotted /\ clears clear0 0 /\ get slotted (KP 0) = Some [2; 6] /\
  (Z.of_nat (cnt slotted), pivot slotted, jc slotted) = (1, 1, 0) /\ (raddr slotted (RP 0), plen slotted (RP 0), tail slotted, end_ slotted) = (2, 2, 7, 12) /\
  run1 asis slotted clear0 = Throw (final slotted [clear0]).
Proof.
  split; [apply l_reached; unfold slotted; now_reach|]. split; [right; exists false, (mkV true []); split; reflexivity|].
  split; [vm_compute; reflexivity|]. split; [vm_compute; reflexivity|]. split; [vm_compute; reflexivity|]. apply run1_failed. vm_compute. reflexivity.
Qed.

(** A refused removal does change the tuple: its payload is now counted as junk although nothing was
    removed.  (junk_.volume is raised before index_alloc() throws.) *)
Theorem C87_refused_is_counted_refuted : forall multi s o j s', lived multi s -> (j < nslots s)%nat -> clears o j -> run1 asis s o = Throw s' ->
  exists n, 0 < n /\ get s (KP j) <> None /\ n = plen s (RP j) /\ jv s' = jv s + n /\ jv s = sumn (cnt s) (hvol s) /\
    (forall r, field s' r = field s r) /\ (idx s', cnt s', pre s', dat s', tail s', jc s') = (idx s, cnt s, pre s, dat s, tail s, jc s).
Proof.
  intros multi s o j s' W Hj C E. destruct (lived_inv multi s W) as [T _]. rewrite (clears_run s o j T Hj C) in E.
  destruct (refused_iff s j T Hj) as [Q1 Q2]. destruct (proj1 Q1 (ex_intro _ s' E)) as (R & _). rewrite (Q2 s' E).
  pose proof (v_acc _ _ (t_inv _ T)) as A. pose proof (jv_live_bound s (plen s) A (RP j) Hj) as B. pose proof (i_cfg _ _ _ _ _ _ A) as [C1 C2 C3 C4 C5].
  pose proof (i_jvr _ _ _ _ _ _ A) as Jr. pose proof (i_jv _ _ _ _ _ _ A) as JV.
  assert (N : 0 < plen s (RP j)) by (apply (t_pos _ T); [exact Hj|reflexivity|exact R]).
  exists (plen s (RP j)). split; [exact N|]. split; [cbn [get rrel] in *; unfold get_slot; replace (pre s j =? 0) with false by lia; congruence|].
  split; [reflexivity|]. split; [cbn [with_jv jv]; unfold u16; change (2 ^ 16) with 65536; unfold base in *; apply Z.mod_small; lia|].
  split; [lia|]. split; [intros [k|i]; reflexivity|reflexivity].
Qed.

(** ** What compaction makes of it *)
(** Compaction then moves the fields to where they belong and cuts the data by the units that were
    counted: the unit at the new end of the data, and all behind it, still belong to fields. *)
Theorem C87_compaction_cuts_refuted : forall multi srt s o j s', lived multi s -> sorter c_off srt -> (j < nslots s)%nat -> clears o j ->
  (jc s <> 0 -> paid_index s) -> paid_slots s -> run1 asis s o = Throw s' ->
  let t := compactify srt s' in
  tail t = tail s - jv s - plen s (RP j) /\ jv t = 0 /\ jc t = 0 /\ (forall i, field t (RP i) = field s (RP i)) /\
  exists r, live t r /\ raddr t r <= tail t < raddr t r + plen t r.
Proof.
  intros multi srt s o j s' W SR Hj C H1 H2 E. destruct (lived_inv multi s W) as [T _]. rewrite (clears_run s o j T Hj C) in E.
  destruct (refused_cut s srt j s' T SR Hj H1 H2 E) as (c & r & K & Ec & N & L & B). cbv zeta. rewrite Ec.
  split; [cbn [with_tail tail]; rewrite (k_tail _ _ K); reflexivity|]. split; [exact (k_jv _ _ K)|]. split; [exact (k_jc _ _ K)|].
  split; [intros i; exact (k_slot _ _ K i)|]. exists r. split; [exact L|exact B].
Qed.
Definition refused : st := match run1 asis slotted clear0 with Throw s' => s' | _ => slotted end.
Example C87_cut_case : paid_slots slotted /\ jc slotted = 0 /\ (jv slotted, jv refused) = (0, 2) /\ tail slotted = 7 /\ tail (compactify srt_chunks refused) = 5 /\
  (raddr (compactify srt_chunks refused) (RL 0), plen (compactify srt_chunks refused) (RL 0)) = (4, 3).
Proof.
  split; [intros [|j] Hj; [vm_compute; discriminate|replace (nslots slotted) with 1%nat in Hj by (vm_compute; reflexivity); lia]|]. vm_compute. repeat split.
Qed.
(** Whatever is appended next is written over a field: its first unit takes a unit of that field. *)
Theorem C87_next_value_overwrites_refuted : forall multi srt s o j s' desc v t', lived multi s -> sorter c_off srt -> (j < nslots s)%nat -> clears o j ->
  (jc s <> 0 -> paid_index s) -> paid_slots s -> run1 asis s o = Throw s' ->
  0 <= desc < 65536 -> is_inplaced_genus (descriptor2genus desc) = false -> Z.of_nat (length (pay v)) = new_units desc v -> pay v <> [] ->
  let t := compactify srt s' in
  run1 asis t (OAppend desc true v) = Ok tt t' ->
  exists r x, live t r /\ raddr t r <= x < raddr t r + plen t r /\ dat t' x = nth 0 (pay v) 0.
Proof.
  intros multi srt s o j s' desc v t' W SR Hj C H1 H2 E Hd Ip L Ne t Ea. destruct (lived_inv multi s W) as [T _]. rewrite (clears_run s o j T Hj C) in E.
  destruct (refused_cut s srt j s' T SR Hj H1 H2 E) as (c & r & K & Ec & N & Lr & B). unfold t in *. clear t. rewrite Ec in *.
  pose proof (k_inv _ _ K) as Tc. pose proof (v_acc _ _ (t_inv _ Tc)) as A. pose proof (i_cfg _ _ _ _ _ _ A) as [C1 C2 C3 C4 C5].
  exists r, (tail c - plen s (RP j)). split; [exact Lr|]. split; [exact B|].
  assert (Bp : base c <= raddr c r). { apply (live_bounds c (plen c) A r Lr). lia. }
  pose proof (append_at_tail _ desc v t' (k_jc _ _ K : jc (with_tail c (tail c - plen s (RP j))) = 0) Hd Ip L Ne) as Q.
  cbn [with_tail tail pivot] in Q. unfold base in *.
  specialize (Q ltac:(lia) Ea 0%nat). rewrite Z.add_0_r in Q. apply Q. destruct (pay v); [congruence|cbn; lia].
Qed.
(** a tuple whose index has room for one more entry after compaction *)
Definition holed : st := final (new_tuple1 20 3) [OSet (fd g_bin96 2) true (blob 3 1); OSet (fd g_bin96 4) true (blob 3 2); OSlot 0 true (vbin 2 6);
  OSet (fd g_bin96 6) true (blob 3 3); ORemove (fd g_bin96 2)].
Definition holed' : st := match run1 asis holed clear0 with Throw s' => compactify srt_chunks s' | _ => holed end.
Example C87_overwrites_case : lived odd_multi holed /\ (jc holed, jv holed) = (1, 3) /\ paid_slots holed /\ paid_index holed /\
  run1 asis holed clear0 = Throw (final holed [clear0]) /\
  get holed' (KL (fd g_bin96 6)) = Some [3; 3; 3] /\
  get (final holed' [OAppend (fd g_bin96 9) true (blob 3 7)]) (KL (fd g_bin96 9)) = Some [7; 7; 7] /\
  get (final holed' [OAppend (fd g_bin96 9) true (blob 3 7)]) (KL (fd g_bin96 6)) = Some [3; 7; 7].
Proof.
  split; [apply l_reached; unfold holed; now_reach|]. split; [vm_compute; reflexivity|].
  split; [intros [|j] Hj; [vm_compute; discriminate|replace (nslots holed) with 1%nat in Hj by (vm_compute; reflexivity); lia]|]. split; [apply settled_dec; vm_compute; (reflexivity || discriminate)|].
  split; [apply run1_failed; vm_compute; reflexivity|]. vm_compute. repeat split.
Qed.

(** ** Auto-growing tuples *)
(** An auto-growing tuple that meets this refusal never asks for a larger buffer, whether or not it
    has free space: it takes the units of the field that could not be removed for free ones, and the
    compaction it starts cuts as many units of other fields off. *)
Theorem C87_managed_room_refuted : forall multi srt borrow managed l d s o j s', lived multi s -> sorter c_off srt -> (j < nslots s)%nat -> clears o j ->
  (jc s <> 0 -> paid_index s) -> paid_slots s -> run1 asis s o = Throw s' ->
  wants s' o = (1, 0) /\
  exists t c, manage srt borrow managed l d s' 1 0 = Room t /\ compacted s c /\ cnt t = cnt c /\ nslots t = nslots c /\
    tail t - pivot t = tail c - pivot c - plen s (RP j) /\ 0 < plen s (RP j) /\
    tail c - pivot c - pp c = sumn (cnt c) (fun k => plen c (RL k)) + sumn (nslots c) (fun i => plen c (RP i)).
Proof.
  intros multi srt borrow managed l d s o j s' W SR Hj C H1 H2 E. destruct (lived_inv multi s W) as [T _].
  pose proof E as E0. rewrite (clears_run s o j T Hj C) in E.
  destruct (refused_cut s srt j s' T SR Hj H1 H2 E) as (c & r & K & Ec & N & _). destruct (refused_iff s j T Hj) as [Q1 Q2].
  destruct (proj1 Q1 (ex_intro _ s' E)) as (R & _). pose proof (Q2 s' E) as Es.
  pose proof (v_acc _ _ (t_inv _ T)) as A. pose proof (jv_live_bound s (plen s) A (RP j) Hj) as B. pose proof (i_cfg _ _ _ _ _ _ A) as [C1 C2 C3 C4 C5].
  pose proof (i_jvr _ _ _ _ _ _ A) as Jr. pose proof (i_jcr _ _ _ _ _ _ A) as Jc.
  assert (Jv : jv s' = jv s + plen s (RP j)).
  { rewrite Es. cbn [with_jv jv]; unfold u16; change (2 ^ 16) with 65536; unfold base in *; apply Z.mod_small; lia. }
  split.
  { assert (Wn : ref_wants s' (RP j) 0 = (1, 0)).
    { rewrite Es. unfold ref_wants. cbn [rrel] in *. change (pre (with_jv s (jv s + plen s (RP j))) j) with (pre s j). replace (pre s j =? 0) with false by lia. reflexivity. }
    destruct C as [->|(disc & v & -> & Nn)]; cbn [wants]; [exact Wn|rewrite Nn; exact Wn]. }
  exists (rearrange srt s' 1 0), c.
  split.
  { unfold manage. cbv zeta. rewrite Jv. unfold unallocated, head. rewrite Es. cbn [with_jv tail pivot cnt jc end_].
    pose proof (kept_count s T). unfold head, base in *.
    replace (_ || _ || _) with false by (change max_fields with 8191; change max_tuple_bytes_netto with 262136; lia).
    replace (0 + 1 <=? _) with true by lia. reflexivity. }
  split; [exact K|].
  assert (RT : cnt (rearrange srt s' 1 0) = cnt c /\ nslots (rearrange srt s' 1 0) = nslots c /\
    tail (rearrange srt s' 1 0) - pivot (rearrange srt s' 1 0) = tail c - pivot c - plen s (RP j)).
  { unfold rearrange. cbv zeta. rewrite Ec. set (d0 := border_shift _ 1 0). destruct (d0 =? 0); cbn [shift_tuple with_border with_tail cnt nslots tail pivot]; repeat split; lia. }
  destruct RT as (R1 & R2 & R3). split; [exact R1|]. split; [exact R2|]. split; [exact R3|]. split; [exact N|].
  pose proof (v_acc _ _ (t_inv _ (k_inv _ _ K))) as Ac. pose proof (i_tot _ _ _ _ _ _ Ac) as Tt. unfold total in Tt. rewrite Z.add_0_r in Tt. unfold base in Tt.
  assert (Ln : sumn (cnt c) (len c (plen c)) = sumn (cnt c) (fun k => plen c (RL k))).
  { apply sumn_ext. intros k Hk. unfold len. rewrite (no_holes c _ Ac (k_jc _ _ K) k Hk). reflexivity. }
  lia.
Qed.
(** The call then reports success, and another field has lost its value. *)
Theorem C87_managed_loses_refuted : exists s o k, lived odd_multi s /\ clears o 0 /\ valid odd_multi s o /\ settled s /\ end_ s - (tail s - head s) = 5 /\ wrote k o = None /\
  forall borrow managed l d, match retry 1 (manage srt_chunks borrow managed l d) s o with
  | Some (ok, s') => ok = true /\ get s' (KP 0) = None /\ get s k = Some [1; 1; 1] /\ get s' k = Some [1; 0; 0]
  | None => False
  end.
Proof.
  exists slotted, clear0, (KL (fd g_bin96 2)). split; [apply l_reached; unfold slotted; now_reach|].
  split; [right; exists false, (mkV true []); split; reflexivity|]. split; [apply validb_ok; vm_compute; reflexivity|].
  split; [apply settled_none; vm_compute; reflexivity|]. split; [vm_compute; reflexivity|]. split; [reflexivity|].
  intros borrow managed l d. vm_compute. repeat split.
Qed.

(** Would the counter be raised after the entry is found, the handler would make room for one entry,
    and the removal would succeed on the first repetition: in place, if there is a unit to spare ... *)
Theorem C87_counted_late_partial : forall multi srt borrow managed l d s j, lived multi s -> settled s -> sorter c_off srt -> (j < nslots s)%nat ->
  plen s (RP j) <= 2047 -> 1 <= jv s + jc s + (end_ s - (tail s - head s)) ->
  exists s1 s', manage srt borrow managed l d s 1 0 = Room s1 /\ run1 asis s1 (OSlotDel j) = Ok tt s' /\ TInv s' /\ get s' (KP j) = None /\
    (forall k, single_key multi s k -> k <> KP j -> u32_value (get s' k) = u32_value (get s k)) /\
    (forall desc, real_desc desc -> multi desc = true -> Permutation (map (map u32) (view s' desc)) (map (map u32) (view s desc))).
Proof.
  intros multi srt borrow managed l d s j W Se SR Hj P F. destruct (lived_inv multi s W) as [T U].
  destruct (rearrange_room multi s srt 1 0 T SR Se ltac:(lia) ltac:(lia)) as (R & _ & _); [unfold unallocated; lia|].
  destruct (clear_after_room multi s _ j T U R Hj P) as (s' & E & O).
  exists (rearrange srt s 1 0), s'. split; [apply manage_in_place; [exact T|lia|lia|unfold unallocated; lia]|]. split; [exact E|]. split; [apply O|].
  split.
  { pose proof (oc_get _ _ _ _ O (KP j) Hj) as G. cbn [last_write wrote key_eqb] in G. rewrite Nat.eqb_refl in G. cbn in G. unfold get. destruct (get_slot s' j); [discriminate|reflexivity]. }
  split.
  - intros k Hk N. rewrite (oc_get _ _ _ _ O k Hk). cbn [last_write]. destruct k as [desc|i]; cbn [wrote key_eqb]; [reflexivity|].
    destruct (Nat.eqb_spec i j) as [->|Ne]; [congruence|reflexivity].
  - intros desc D Hm. exact (oc_bag _ _ _ _ O desc D Hm).
Qed.
Example C87_counted_late_case : settled slotted /\ plen slotted (RP 0) = 2 /\
  match manage srt_chunks none_lent true no_lay zeros slotted 1 0 with
  | Room s1 => outcome s1 [OSlotDel 0] = Some [true] /\ get (final s1 [OSlotDel 0]) (KP 0) = None /\ get (final s1 [OSlotDel 0]) (KL (fd g_bin96 2)) = Some [1; 1; 1]
  | _ => False
  end.
Proof. split; [apply settled_none; vm_compute; reflexivity|]. vm_compute. repeat split. Qed.
(** ... and in a larger buffer otherwise. *)
Theorem C87_counted_late_grown_partial : forall multi srt borrow l d s j, lived multi s -> (j < nslots s)%nat -> plen s (RP j) <= 2047 ->
  layout_of s l -> lends borrow -> jc s = 0 -> jv s = 0 -> end_ s - (tail s - head s) < 1 -> tail s - head s + 1 < 65535 -> Z.of_nat (cnt s) + 1 <= max_fields ->
  growth_data s 0 + l_bytes l <= max_tuple_bytes_netto -> growth_index s 1 + (tail s - pivot s) <= 65534 ->
  exists s1 s', manage srt borrow true l d s 1 0 = Room s1 /\ run1 asis s1 (OSlotDel j) = Ok tt s' /\ TInv s' /\ get s' (KP j) = None /\
    (forall k, single_key multi s k -> k <> KP j -> u32_value (get s' k) = u32_value (get s k)) /\
    (forall desc, real_desc desc -> multi desc = true -> Permutation (map (map u32) (view s' desc)) (map (map u32) (view s desc))).
Proof.
  intros multi srt borrow l d s j W Hj P L B J V Un Al Few Data Fit. destruct (lived_inv multi s W) as [T U].
  destruct (grow_room multi srt borrow l d s 1 0 T L B J V ltac:(lia) ltac:(lia) ltac:(unfold unallocated; lia) ltac:(lia) ltac:(lia) Data ltac:(lia)) as (s1 & Em & R & _).
  destruct (clear_after_room multi s _ j T U R Hj P) as (s' & E & O).
  exists s1, s'. split; [exact Em|]. split; [exact E|]. split; [apply O|].
  split.
  { pose proof (oc_get _ _ _ _ O (KP j) Hj) as G. cbn [last_write wrote key_eqb] in G. rewrite Nat.eqb_refl in G. cbn in G. unfold get. destruct (get_slot s' j); [discriminate|reflexivity]. }
  split.
  - intros k Hk N. rewrite (oc_get _ _ _ _ O k Hk). cbn [last_write]. destruct k as [desc|i]; cbn [wrote key_eqb]; [reflexivity|].
    destruct (Nat.eqb_spec i j) as [->|Ne]; [congruence|reflexivity].
  - intros desc D Hm. exact (oc_bag _ _ _ _ O desc D Hm).
Qed.
Definition crammed : st := final (new_tuple1 7 1) [OSlot 0 true (vbin 2 6); OSet (fd g_bin96 2) true (blob 3 1)].
Definition lay1 : layout := mkL 4 1 no_slots (fun _ => g_varbin).
Example C87_grown_case : lived odd_multi crammed /\ layout_of crammed lay1 /\ end_ crammed - (tail crammed - head crammed) = 0 /\ (jc crammed, jv crammed) = (0, 0) /\
  run1 asis crammed clear0 = Throw (final crammed [clear0]) /\ growth_data crammed 0 = 192 /\ growth_index crammed 1 = 4 /\
  match manage srt_chunks none_lent true lay1 zeros crammed 1 0 with
  | Room s1 => outcome s1 [OSlotDel 0] = Some [true] /\ get (final s1 [OSlotDel 0]) (KP 0) = None /\ get (final s1 [OSlotDel 0]) (KL (fd g_bin96 2)) = Some [1; 1; 1]
  | _ => False
  end.
Proof.
  split; [apply l_reached; unfold crammed; now_reach|].
  split; [split; [discriminate|split; [reflexivity|split; [reflexivity|intros [|j] Hj; [split; reflexivity|cbn in Hj; lia]]]]|].
  split; [vm_compute; reflexivity|]. split; [vm_compute; reflexivity|]. split; [apply run1_failed; vm_compute; reflexivity|]. vm_compute. repeat split.
Qed.

(** ** Erasing by token or by iterator *)
(** The overloads of an auto-growing tuple that take a token or iterators do nothing to a preplaced
    field that is there, and say that there was nothing to erase. *)
Theorem C87_erase_does_nothing_refuted : forall fuel mg s j, get s (KP j) <> None ->
  managed_erase fuel mg s j = Some (Some false, s) /\ managed_erase_range fuel mg s j = Some (Some 0, s).
Proof.
  intros fuel mg s j G. pose proof (C41_erase_by_token_keeps s j G) as E. unfold managed_erase_range.
  destruct fuel; cbn [managed_erase]; rewrite E; auto.
Qed.
Example C87_erase_case : get slotted (KP 0) <> None /\ get holed (KP 0) <> None.
Proof. split; vm_compute; discriminate. Qed.

Print Assumptions C87_refused_exactly.
Print Assumptions C87_refused_is_counted_refuted.
Print Assumptions C87_compaction_cuts_refuted.
Print Assumptions C87_next_value_overwrites_refuted.
Print Assumptions C87_managed_room_refuted.
Print Assumptions C87_managed_loses_refuted.
Print Assumptions C87_counted_late_partial.
Print Assumptions C87_counted_late_grown_partial.
Print Assumptions C87_erase_does_nothing_refuted.

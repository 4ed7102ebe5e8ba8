(** * PropertiesPolicy: C71, how much room is asked for and how much is made. *)
From Verif Require Import Base Tag TagProofs Codec Gear GearBase GearSearch GearProofs GearAlloc GearRealloc Tuple TupleProofs TupleSteps TupleView TupleOps TupleMore
  TupleHist TupleFacts PropertiesTuple Hippeus Scan Audit Image ImageProofs PropertiesImage GearOpt GearOptProofs PropertiesOpt Growth GrowthProofs PropertiesGrowth PolicyProofs.
From Coq Require Import ZifyBool ZifyNat Permutation.
Ltac Zify.zify_post_hook ::= Z.div_mod_to_equations.

(** ** C71 *)
(** An operation that fails names an amount of index slots or of data units that is really not there,
    so that making room for it is never void.  This holds for the code as it is, slips included, as
    long as the junk fits the 11 bits of a hole ([roomy_op]).  Operations that remove loose fields
    never fail. *)
Theorem C71_missing : forall multi s o s', lived multi s -> valid multi s o -> roomy_op s o -> run1 asis s o = Throw s' ->
  Z.of_nat (cnt s) + fst (wants s o) > pivot s \/ tail s + snd (wants s o) > end_ s.
Proof.
  intros multi s o s' W V R E. destruct (lived_inv multi s W) as [T _]. destruct (op_missing multi s o s' T V R E) as [M|M]; [left|right].
  - unfold head_space in M. lia.
  - unfold tail_space in M. lia.
Qed.
Theorem C71_removal_never_fails : forall s o s', match o with ORemove _ | OEraseAll _ | OErase _ => True | _ => False end -> run1 asis s o <> Throw s'.
Proof.
  intros s [desc disc v|desc|desc disc v|desc|k|j disc v|j] s'; try contradiction; intros _; cbn [run1].
  - destruct (lookup_gid s desc); [apply release_loose_calm|discriminate].
  - unfold erase_all. destruct (lookup_gid s desc); [apply erase_all_calm|discriminate].
  - apply release_loose_calm.
Qed.
Example C71_missing_case : lived odd_multi tight /\ valid odd_multi tight seven /\ roomy_op tight seven /\ run1 asis tight seven = Throw (final tight [seven]) /\
  wants tight seven = (1, 6) /\ (Z.of_nat (cnt tight), pivot tight, tail tight, end_ tight) = (3, 3, 12, 15).
Proof.
  split; [apply l_reached; unfold tight; now_reach|]. split; [apply validb_ok; vm_compute; reflexivity|]. split; [exact I|].
  split; [apply run1_failed; vm_compute; reflexivity|]. split; vm_compute; reflexivity.
Qed.
(** the payload of a preplaced field cannot be freed when the index is full, and one slot is asked for *)
Definition slotted : st := final (new_tuple1 12 1) [OSlot 0 true (vbin 2 6); OSet (fd g_bin96 2) true (blob 3 1)].
Example C71_missing_slot_case : lived odd_multi slotted /\ valid odd_multi slotted (OSlotDel 0) /\ roomy_op slotted (OSlotDel 0) /\
  run1 asis slotted (OSlotDel 0) = Throw (final slotted [OSlotDel 0]) /\ wants slotted (OSlotDel 0) = (1, 0).
Proof.
  split; [apply l_reached; unfold slotted; now_reach|]. split; [apply validb_ok; vm_compute; reflexivity|]. split; [vm_compute; reflexivity|].
  split; [apply run1_failed; vm_compute; reflexivity|]. vm_compute; reflexivity.
Qed.

(** When the free space suffices and one side is short, the tuple is moved inside its buffer so that
    both sides get what is wanted, and the free space is shared in proportion to the use of the
    sides, rounded in favour of the index, unless the wish of one side forbids it. *)
Theorem C71_share : forall multi srt s wi wd, lived multi s -> jc s = 0 -> jv s = 0 -> 0 <= wi -> 0 <= wd ->
  wi + wd <= end_ s - (tail s - head s) -> head s < wi \/ end_ s - tail s < wd ->
  let s' := rearrange srt s wi wd in let h := head s' in let t := end_ s' - tail s' in
  let iu := Z.of_nat (cnt s) + wi in let du := tail s - pivot s + wd in
  cnt s' = cnt s /\ end_ s' = end_ s /\ tail s' - pivot s' = tail s - pivot s /\
  wi <= h /\ wd <= t /\ h + t = end_ s - (tail s - head s) /\ (h = wi \/ t = wd \/ 0 <= h * du - t * iu < iu + du).
Proof.
  intros multi srt s wi wd W Jc Jv Hi Hd Hu Hs. destruct (lived_inv multi s W) as [T _].
  pose proof (share_spec s wi wd T Hi Hd Hu Hs) as P. cbv zeta in *. unfold rearrange. cbv zeta. rewrite (compact_id s srt Jc Jv).
  set (b := border_shift s wi wd) in *.
  assert (E : (if b =? 0 then s else shift_tuple s b) = s /\ b = 0 \/ (if b =? 0 then s else shift_tuple s b) = shift_tuple s b).
  { destruct (Z.eqb_spec b 0) as [->|N]; auto. }
  destruct E as [[-> B]| ->].
  - rewrite B, !Z.add_0_r in P. repeat (split; [first [reflexivity|apply P|idtac]|]). apply P.
  - unfold shift_tuple, head in *. cbn [with_border cnt end_ tail pivot].
    split; [reflexivity|]. split; [reflexivity|]. split; [lia|]. replace (pivot s + b - Z.of_nat (cnt s)) with (pivot s - Z.of_nat (cnt s) + b) by lia. exact P.
Qed.
Definition wide : st := final (new_tuple 40 2) [OSet (fd g_bin128 2) true (blob 4 1); OSet (fd g_bin128 4) true (blob 4 2)].
Example C71_share_case : lived odd_multi wide /\ (head wide, cnt wide, pivot wide, tail wide, end_ wide) = (0, 2%nat, 2, 10, 40) /\
  (head (rearrange srt_chunks wide 1 4), tail (rearrange srt_chunks wide 1 4)) = (6, 16) /\ 30 - 6 = 24 /\ 24 = end_ wide - 16.
Proof. split; [apply l_reached; unfold wide; now_reach|]. vm_compute. repeat split. Qed.

(** A larger buffer is asked for in the smallest of five standard sizes that is large enough, or,
    beyond the largest, in the size needed; what is needed doubles the index, when that is short or
    more than half used, and doubles the data, when they are short, else adds 42 units to them. *)
Theorem C71_new_buffer : forall multi srt borrow l d s wi wd s', lived multi s -> 0 <= l_bytes l <= 262136 -> 0 <= wi -> 0 <= wd ->
  jc s = 0 -> jv s = 0 -> end_ s - (tail s - head s) < wi + wd -> manage srt borrow true l d s wi wd = Room s' ->
  exists n, asked (l_bytes l) (44 + 4 * index_next s wi + ceil4 (data_next s wd + l_bytes l)) n /\
    pivot s' = index_next s wi /\ end_ s' = Z.min 65534 (Z.shiftr (u32 (borrow n - 44)) 2) /\ cnt s' = cnt s /\ tail s' - pivot s' = tail s - pivot s.
Proof.
  intros multi srt borrow l d s wi wd s' W L Hi Hd Jc Jv Un E. destruct (lived_inv multi s W) as [T _]. eapply new_buffer; eassumption.
Qed.
Example C71_new_buffer_case : lived odd_multi full9 /\ (head full9, pivot full9, tail full9, end_ full9) = (1, 2, 8, 8) /\
  index_next full9 1 = 2 /\ data_next full9 6 = 96 /\ standard 4 (32, 1023) = 1196 /\
  match manage srt_chunks none_lent true lay9 zeros full9 1 6 with Room s' => (pivot s', end_ s') = (2, 288) | _ => False end.
Proof. split; [apply l_reached; unfold full9; now_reach|]. vm_compute. repeat split. Qed.

(** A tuple of the C interface that is grown by realloc keeps its index, its data and its junk; they
    move up when the index grows.  (Its end is wrong, C29_legacy_growth_refuted.) *)
Theorem C71_legacy_carried : forall srt borrow l d s wi wd s', end_ s - (tail s - head s) + (jv s + jc s) < wi + wd ->
  2 * (jv s + jc s) <= tail s - head s -> tail s - head s + wi + wd < 65535 -> manage srt borrow false l d s wi wd = Room s' ->
  carried s s' (Z.max 0 (index_next s wi - pivot s)).
Proof. intros srt borrow l d s wi wd s' A B C E. destruct (legacy_carried srt borrow l d s wi wd s' A B C E) as (k & -> & K). exact K. Qed.
Definition gap9 : st := final (new_tuple 14 3) [OSet (fd g_bin128 2) true (blob 4 1); OSet (fd g_bin128 4) true (blob 4 2);
  OSet (fd g_u32 6) true (blob 1 2); ORemove (fd g_bin128 2)].
Example C71_legacy_case : (jc gap9, jv gap9, pivot gap9) = (1, 4, 3) /\ index_next gap9 1 = 8 /\
  match manage srt_chunks none_lent false no_lay zeros gap9 1 30 with Room s' => (jc s', jv s', pivot s', cnt s') = (1, 4, 8, 3%nat) | _ => False end.
Proof. vm_compute. repeat split. Qed.

Print Assumptions C71_missing.
Print Assumptions C71_removal_never_fails.
Print Assumptions C71_share.
Print Assumptions C71_new_buffer.
Print Assumptions C71_legacy_carried.

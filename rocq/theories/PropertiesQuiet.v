(** * Ordinary use of a tuple: C01-C06, C39 without the list of allocator slips.
    For tuples with at most 2047 units (8 KB) of data whose index has room to spare, the one thing a
    caller must not do is to add a field with payload while there are holes (compaction removes them). *)
From Verif Require Import Base Tag TagProofs Codec Gear GearBase GearSearch GearProofs GearAlloc GearAsis
  Tuple TupleMore TupleProofs TupleSteps TupleView TupleOps TupleHist TupleFacts TupleQuiet PropertiesTuple
  GearOpt GearOptProofs PropertiesOpt.
From Coq Require Import ZifyBool ZifyNat Permutation.
Ltac Zify.zify_post_hook ::= Z.div_mod_to_equations.

(** ** C01, C39 *)
(** [worked]: any sequence of calls and compactions before.  [quiet_run]: at every call the index has
    more places than twice the loose fields plus the preplaced references, and a call that makes a new
    field with payload meets no holes.  Growing, shrinking, emptying, removing and re-filling of
    existing fields, and new fields of the in-place types, are not restricted. *)
Theorem C01_ordinary_use_partial : forall multi s l,
  worked multi s -> end_ s - pivot s - pp s <= 2047 -> quiet_run multi s l ->
  exists outs s', run asis s l = Some (outs, s') /\ length outs = length l /\ worked multi s' /\
    (forall desc, real_desc desc -> multi desc = false ->
       get_loose s' desc = last_write (KL desc) (get_loose s desc) (combine l outs)) /\
    (forall j, (j < nslots s)%nat -> get_slot s' j = last_write (KP j) (get_slot s j) (combine l outs)).
Proof.
  intros multi s l W M Q. destruct (worked_inv multi s W) as [T U].
  pose proof (quiet_run_calm multi l s T U M Q) as C.
  destruct (history multi l s T U C) as (outs & s' & E & Le & _ & _ & _ & G & _).
  exists outs, s'. split; [exact E|]. split; [exact Le|]. split; [exact (w_calls multi s l outs s' W C E)|]. split.
  - intros desc Hd Hm. exact (G (KL desc) (conj Hd Hm)).
  - intros j Hj. exact (G (KP j) Hj).
Qed.
Theorem C39_ordinary_use_partial : forall multi s l desc B,
  worked multi s -> end_ s - pivot s - pp s <= 2047 -> quiet_run multi s l ->
  real_desc desc -> multi desc = true -> Permutation (view s desc) B ->
  exists outs s', run asis s l = Some (outs, s') /\ Permutation (view s' desc) (bag_run desc B (trace asis s l)).
Proof.
  intros multi s l desc B W M Q Hd Hm P. destruct (worked_inv multi s W) as [T U].
  pose proof (quiet_run_calm multi l s T U M Q) as C.
  destruct (history multi l s T U C) as (outs & s' & E & _ & _ & _ & _ & _ & G).
  exists outs, s'. split; [exact E|]. exact (G desc B Hd Hm P).
Qed.
(** shrinking, growing, emptying, removing, a preplaced field set and reset, a new in-place field amid
    holes; the holes are there (two of them, six units) *)
Definition edits : list op :=
  [OSet (fd g_varbin 2) true (vbin 9 1); OSet (fd g_varbin 4) true (vbin 5 2); OSet (fd g_i64 6) true (blob 2 3);
   OAppend (fd g_bin96 1) true (blob 3 4); OAppend (fd g_bin96 1) true (blob 3 5); OSlot 0 true (vbin 4 6);
   OSet (fd g_varbin 2) true (vbin 3 7); OSet (fd g_varbin 4) true (vbin 8 8); OSet (fd g_u16 8) true (blob 1 9);
   OErase 3; OSlotDel 0; OSlot 0 true (vbin 2 1); ORemove (fd g_i64 6); OSet (fd g_varbin 4) true (vbin 4 4)].
Example C01_ordinary_case :
  worked odd_multi (new_tuple1 80 20) /\ quiet_run odd_multi (new_tuple1 80 20) edits /\
  outcome (new_tuple1 80 20) edits = Some (repeat true 14) /\
  0 < jv (final (new_tuple1 80 20) edits) /\ 2 <= jc (final (new_tuple1 80 20) edits) /\
  get_loose (final (new_tuple1 80 20) edits) (fd g_varbin 2) = Some [3; 7; 7] /\
  get_loose (final (new_tuple1 80 20) edits) (fd g_varbin 4) = Some [4; 4; 4; 4] /\
  get_slot (final (new_tuple1 80 20) edits) 0 = Some [2; 1].
Proof.
  split; [apply w_reached; apply (reach1 80 20 []); reflexivity|].
  split; [apply quiet_runb_ok; vm_compute; reflexivity|]. vm_compute. repeat split; congruence.
Qed.
(** The provisos are needed: the history of [C01_read_your_writes_refuted] breaks only the one about
    holes, the one of [C03_failed_slot_release_refuted] only the one about the index. *)
Example C01_ordinary_needs :
  spare (final (new_tuple 60 20) (firstn 4 split_history)) = true /\
  get_loose (final (new_tuple 60 20) split_history) (fd g_u32 2) = Some [4] /\
  spare (final (new_tuple1 20 1) slot_history) = false /\
  makes (final (new_tuple1 20 1) slot_history) (OSlot 0 false nothing) = false.
Proof. vm_compute. repeat split. Qed.

(** ** C02, C03, C04: single calls *)
Theorem C02_ordinary_use_partial : forall multi s o,
  worked multi s -> end_ s - pivot s - pp s <= 2047 -> valid multi s o -> quiet s o = true ->
  match run1 asis s o with
  | Ok _ s' =>
    (forall r x, field s r = Some x -> ~ addressed s o r -> field s' r = Some x) /\
    (forall r x, field s r = None -> field s' r = Some x -> creates o x) /\
    (forall r1 r2, field s r1 = None -> field s r2 = None -> field s' r1 <> None -> field s' r2 <> None -> r1 = r2)
  | Throw s' => s' = s
  | Bad => False
  end.
Proof.
  intros multi s o W M V Q. destruct (worked_inv multi s W) as [T U].
  pose proof (quiet_calm multi s o T M V Q) as C. pose proof (step multi s o T U V C) as St.
  pose proof (step_framed multi s o) as Fr.
  destruct (run1 asis s o) as [[] s'|s'|]; [apply (Fr s' T V C eq_refl)|exact St|exact St].
Qed.
Theorem C04_ordinary_use_partial : forall multi s o s' x,
  worked multi s -> end_ s - pivot s - pp s <= 2047 -> valid multi s o -> quiet s o = true ->
  run1 asis s o = Ok tt s' -> dat s' x <> dat s x ->
  exists r, live s' r /\ raddr s' r <= x < raddr s' r + plen s' r /\
            pivot s' + pp s' <= x < tail s' /\ tail s' <= end_ s'.
Proof.
  intros multi s o s' x W M V Q E. destruct (worked_inv multi s W) as [T U].
  exact (writes_inside multi s o s' x T U V (quiet_calm multi s o T M V Q) E).
Qed.
Example C02_ordinary_case : exists s o, worked odd_multi s /\ end_ s - pivot s - pp s <= 2047 /\
  valid odd_multi s o /\ quiet s o = true /\ jv s = 6 /\ outcome s [o] = Some [true].
Proof.
  exists (final (new_tuple1 80 20) (firstn 7 edits)), (OSet (fd g_varbin 4) true (vbin 8 8)).
  split; [apply w_reached; now_reach|]. split; [vm_compute; congruence|].
  split; [apply validb_ok; vm_compute; reflexivity|]. vm_compute. repeat split.
Qed.

(** ** C05: there are never more holes than fields *)
(** Every hole is followed directly by a payload, and different holes by different ones. *)
Theorem C05_holes_followed_partial : forall multi s i, worked multi s -> nzh s i ->
  exists r, live s r /\ raddr s r = hole_end s i /\ 0 < plen s r.
Proof. intros multi s i W H. destruct (worked_inv multi s W) as [T _]. exact (hole_follower s i T H). Qed.
Theorem C05_holes_at_most_fields_partial : forall multi s l, worked multi s ->
  NoDup l -> (forall i, In i l -> nzh s i) ->
  Z.of_nat (length l) <= loose_count s + Z.of_nat (nslots s).
Proof.
  intros multi s l W N H. destruct (worked_inv multi s W) as [T _].
  destruct (follower_inj s T l N H) as (f & Nf & Lf & Pf). rewrite (count_live s T), <- refs_length, <- Lf.
  apply inj_le, NoDup_incl_length; [exact Nf|]. intros r Hr. apply refs_live, Pf, Hr.
Qed.
Example C05_holes_case : exists s l, worked odd_multi s /\ NoDup l /\ (forall i, In i l -> nzh s i) /\ length l = 2%nat.
Proof.
  exists (final (new_tuple1 80 20) (firstn 10 edits)).
  exists (filter (nzb (final (new_tuple1 80 20) (firstn 10 edits))) (seq 0 8)).
  split; [apply w_reached; now_reach|]. split; [apply NoDup_filter, seq_NoDup|]. split; [|vm_compute; reflexivity].
  assert (E : filter (nzb (final (new_tuple1 80 20) (firstn 10 edits))) (seq 0 8) = [3; 5]%nat) by (vm_compute; reflexivity).
  rewrite E. intros i [<-|[<-|[]]]; vm_compute; repeat split; lia.
Qed.

(** ** C06: an index with room to spare never runs out *)
(** new fields of the in-place types always find a place, and releasing a preplaced field succeeds *)
Theorem C06_spare_index_partial : forall multi s, worked multi s ->
  2 * loose_count s + Z.of_nat (nslots s) < pivot s ->
  (forall desc v, valid multi s (OSet desc true v) -> loose_units (descriptor2genus desc) = 0 ->
     fixed_genus (descriptor2genus desc) = true -> exists s', run1 asis s (OSet desc true v) = Ok tt s') /\
  (forall desc v, valid multi s (OAppend desc true v) -> loose_units (descriptor2genus desc) = 0 ->
     fixed_genus (descriptor2genus desc) = true -> exists s', run1 asis s (OAppend desc true v) = Ok tt s') /\
  (forall j, (j < nslots s)%nat -> end_ s - pivot s - pp s <= 2047 -> exists s', run1 asis s (OSlotDel j) = Ok tt s').
Proof.
  intros multi s W Sp. destruct (worked_inv multi s W) as [T U].
  assert (Sb : spare s = true) by (unfold spare; lia). pose proof (spare_not_full s T Sb) as Nf.
  assert (Nu : forall desc v, loose_units (descriptor2genus desc) = 0 -> fixed_genus (descriptor2genus desc) = true -> new_units desc v = 0)
    by (intros desc v L F; unfold new_units; rewrite F; exact L).
  split; [|split].
  - intros desc v V L F. destruct V as (Hd & Hm & Hw).
    assert (C : calm s (OSet desc true v) = true).
    { cbn [calm]. destruct (lookup_gid s desc); [rewrite F; unfold stores; rewrite F; reflexivity|].
      rewrite (Nu desc v L F), calm_new_none by lia. apply Bool.orb_true_r. }
    pose proof (set_step s desc true v T Hd Hw C) as Q. unfold set_fails in Q.
    destruct (lookup_gid s desc) as [k|] eqn:Lk.
    + cbn [run1]. rewrite F. unfold assign_fixed. cbn [negb andb]. rewrite Lk. cbn [void bind]. eauto.
    + destruct (run1 asis s (OSet desc true v)) as [[] s'|s'|]; [eauto| |contradiction].
      exfalso. destruct Q as [_ Q]. destruct Q as [Q|[Q _]]; [rewrite (Nu desc v L F) in Q; lia|exact (Nf Q)].
  - intros desc v V L F. destruct V as (Hd & Hm & Hw).
    assert (C : calm s (OAppend desc true v) = true).
    { cbn [calm negb andb orb]. rewrite (Nu desc v L F). apply calm_new_none; lia. }
    pose proof (append_step s desc true v T Hd Hw C) as Q. cbn [run1].
    destruct (append_loose asis s desc true v) as [[k|] s'|s'|]; cbn [void bind]; [eauto|eauto| |contradiction].
    exfalso. destruct Q as [_ [Q|[Q _]]]; [rewrite (Nu desc v L F) in Q; lia|exact (Nf Q)].
  - intros j Hj M. cbn [run1]. rewrite (erase_slot_assign asis s j T Hj).
    assert (C : calm_ref s (RP j) 0 = true) by (apply quiet_ref; auto; lia).
    pose proof (assign_ref_step s (RP j) false (mkV true []) T Hj eq_refl ltac:(split; cbn; [lia|congruence]) C) as Q.
    destruct (assign_ref asis s (RP j) false (mkV true [])) as [[] s'|s'|]; [eauto| |contradiction].
    exfalso. destruct Q as [_ [Q|(Q & _)]]; [exact (Nf Q)|]. pose proof (plen_nonneg s (RP j)).
    change (needed false (mkV true [])) with 0 in Q. lia.
Qed.
Example C06_spare_case : exists s, worked odd_multi s /\ 2 * loose_count s + Z.of_nat (nslots s) < pivot s /\
  jc s = 2 /\ jv s = 6.
Proof.
  exists (final (new_tuple1 80 20) (firstn 10 edits)). split; [apply w_reached; now_reach|].
  split; [apply Z.ltb_lt; vm_compute; reflexivity|]. vm_compute. repeat split.
Qed.

Print Assumptions C01_ordinary_use_partial.
Print Assumptions C39_ordinary_use_partial.
Print Assumptions C02_ordinary_use_partial.
Print Assumptions C04_ordinary_use_partial.
Print Assumptions C05_holes_followed_partial.
Print Assumptions C05_holes_at_most_fields_partial.
Print Assumptions C06_spare_index_partial.

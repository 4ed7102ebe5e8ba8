(** * PropertiesGrowth: C29, C31, and C30 for growing tuples. *)
From Verif Require Import Base Tag TagProofs Codec Gear GearBase GearSearch GearProofs GearAlloc GearRealloc Tuple TupleProofs TupleSteps TupleView TupleOps TupleMore
  TupleHist TupleFacts PropertiesTuple Hippeus Scan Audit Image ImageProofs PropertiesImage GearOpt GearOptProofs PropertiesOpt Growth GrowthProofs.
From Coq Require Import ZifyBool ZifyNat Permutation.
Ltac Zify.zify_post_hook ::= Z.div_mod_to_equations.

(** ** C29 *)
(** The conditions under which a call that lacks space is repeated with success, in place ... *)
Record in_place (multi : Z -> bool) (srt : list chunk -> list chunk) (s : st) (o : op) : Prop := {
  ip_valid : valid multi s o; ip_calm : calm s o = true; ip_storing : storing o = true; ip_small : small s o;
  ip_sorter : sorter c_off srt; ip_settled : settled s;
  ip_space : op_units o + 1 <= jv s + jc s + (end_ s - (tail s - head s))
}.
(** ... and in a larger buffer *)
Record can_grow (multi : Z -> bool) (borrow : Z -> Z) (l : layout) (s : st) (o : op) : Prop := {
  cg_valid : valid multi s o; cg_calm : calm s o = true; cg_storing : storing o = true; cg_small : small s o;
  cg_layout : layout_of s l; cg_lends : lends borrow; cg_jc : jc s = 0; cg_jv : jv s = 0;
  cg_refused : exists s0, run1 asis s o = Throw s0;
  cg_deficit : end_ s - (tail s - head s) < fst (wants s o) + op_units o;
  cg_whole : tail s - head s + 1 + op_units o < 65535;
  cg_count : Z.of_nat (cnt s) + 1 <= max_fields;
  cg_data : growth_data s (op_units o) + l_bytes l <= max_tuple_bytes_netto;
  cg_index : growth_index s (fst (wants s o)) + (tail s - pivot s) + op_units o <= 65534
}.
(** States of an auto-growing tuple: any sequence of calls, compactions, and calls for which room had
    to be made. *)
Inductive lived (multi : Z -> bool) : st -> Prop :=
| l_reached s : reached multi s -> lived multi s
| l_calls s l outs s' : lived multi s -> calm_run multi s l -> run asis s l = Some (outs, s') -> lived multi s'
| l_compact s srt : lived multi s -> settled s -> sorter c_off srt -> lived multi (compactify srt s)
| l_in_place s srt borrow managed l d o s' : lived multi s -> in_place multi srt s o ->
    retry 2 (manage srt borrow managed l d) s o = Some (true, s') -> lived multi s'
| l_grown s srt borrow l d o s' : lived multi s -> can_grow multi borrow l s o ->
    retry 1 (manage srt borrow true l d) s o = Some (true, s') -> lived multi s'.
Lemma in_place_ok multi srt borrow managed l d s o : TInv s -> uniq multi s -> in_place multi srt s o ->
  exists s', retry 2 (manage srt borrow managed l d) s o = Some (true, s') /\ outcome_of multi s o s'.
Proof. intros T U []. apply retry_in_place; assumption. Qed.
Lemma can_grow_ok multi srt borrow l d s o : TInv s -> uniq multi s -> can_grow multi borrow l s o ->
  exists s', retry 1 (manage srt borrow true l d) s o = Some (true, s') /\ outcome_of multi s o s'.
Proof. intros T U []. apply retry_grows; assumption. Qed.
Lemma lived_inv multi s : lived multi s -> TInv s /\ uniq multi s.
Proof.
  induction 1 as [s R|s l outs s' W [T U] C E|s srt W [T U] [S1 S2] SR|s srt borrow managed l d o s' W [T U] I E|s srt borrow l d o s' W [T U] G E].
  - apply (reached_inv multi s R).
  - destruct (history multi l s T U C) as (outs' & s1 & E' & _ & T1 & U1 & _). rewrite E in E'. assert (s' = s1) as -> by congruence. auto.
  - pose proof (compactify_ok s srt T SR S1 S2) as K. split; [apply K|]. eapply compacted_uniq; eassumption.
  - destruct (in_place_ok multi srt borrow managed l d s o T U I) as (s1 & E1 & O). rewrite E in E1. assert (s' = s1) as -> by congruence. split; apply O.
  - destruct (can_grow_ok multi srt borrow l d s o T U G) as (s1 & E1 & O). rewrite E in E1. assert (s' = s1) as -> by congruence. split; apply O.
Qed.

(** In place: whenever the free units, counting junk, suffice for the value and an index slot, the
    auto-growing tuple stores the value after at most two rounds of making room, whatever the
    allocator of buffers does; the written field has the new value and all others have theirs.
    Missing for the full property: operations that run into one of the slips of C01 ([calm]), values
    of more than 2047 units that are replaced ([small]), and states in which compaction is
    harmful ([settled], C07). *)
Theorem C29_retry_in_place_partial : forall multi srt borrow managed l d s o, lived multi s -> in_place multi srt s o ->
  exists s', retry 2 (manage srt borrow managed l d) s o = Some (true, s') /\ lived multi s' /\ TInv s' /\
    (forall k, single_key multi s k -> u32_value (get s' k) = u32_value (last_write k (get s k) [(o, true)])) /\
    (forall desc, real_desc desc -> multi desc = true ->
       Permutation (map (map u32) (view s' desc)) (map (map u32) (bag_step desc (view s desc) o true None))).
Proof.
  intros multi srt borrow managed l d s o W I. destruct (lived_inv multi s W) as [T U].
  destruct (in_place_ok multi srt borrow managed l d s o T U I) as (s' & E & O).
  exists s'. split; [exact E|]. split; [eapply l_in_place; eassumption|]. split; [apply O|]. split; [apply O|apply O].
Qed.
(** three fields, the first of them removed; the index is full and the new field does not fit behind
    the data, but the free space adds up *)
Definition tight : st := final (new_tuple 15 3) [OSet (fd g_bin128 2) true (blob 4 1); OSet (fd g_bin128 4) true (blob 4 2);
  OSet (fd g_u32 6) true (blob 1 2); ORemove (fd g_bin128 2)].
Definition none_lent (n : Z) : Z := n.
Definition no_lay : layout := mkL 0 0 no_slots no_slots.
Definition seven : op := OSet (fd g_varbin 8) true (vbin 6 5).
Example C29_in_place_case : lived odd_multi tight /\ in_place odd_multi srt_chunks tight seven /\
  outcome tight [seven] = Some [false] /\ wants tight seven = (1, 6) /\
  match retry 2 (manage srt_chunks none_lent true no_lay zeros) tight seven with
  | Some (true, s') => (cnt s', pivot s', tail s', end_ s') = (3%nat, 3, 14, 15) /\ get s' (KL (fd g_varbin 8)) = Some [6; 5; 5; 5; 5; 5] /\
      get s' (KL (fd g_bin128 4)) = Some [2; 2; 2; 2] /\ get s' (KL (fd g_u32 6)) = Some [2]
  | _ => False
  end.
Proof.
  split; [apply l_reached; unfold tight; now_reach|].
  split; [constructor|vm_compute; repeat split].
  - apply validb_ok; vm_compute; reflexivity.
  - vm_compute; reflexivity.
  - vm_compute; reflexivity.
  - vm_compute; exact I.
  - apply by_insertion_sorter.
  - apply settled_dec; vm_compute; reflexivity.
  - vm_compute; discriminate.
Qed.

(** In a larger buffer: a tuple without junk is moved to a buffer from the allocator and the call
    succeeds at once, if the doubled index, the data and the new value fit 65534 units, the doubled
    data leave place for the preplaced part, and the index stays below 8192 entries. *)
Theorem C29_grow_partial : forall multi srt borrow l d s o, lived multi s -> can_grow multi borrow l s o ->
  exists s', retry 1 (manage srt borrow true l d) s o = Some (true, s') /\ lived multi s' /\ TInv s' /\
    (forall k, single_key multi s k -> u32_value (get s' k) = u32_value (last_write k (get s k) [(o, true)])) /\
    (forall desc, real_desc desc -> multi desc = true ->
       Permutation (map (map u32) (view s' desc)) (map (map u32) (bag_step desc (view s desc) o true None))).
Proof.
  intros multi srt borrow l d s o W G. destruct (lived_inv multi s W) as [T U].
  destruct (can_grow_ok multi srt borrow l d s o T U G) as (s' & R & O).
  exists s'. split; [exact R|]. split; [eapply l_grown; eassumption|]. split; [apply O|]. split; [apply O|apply O].
Qed.
Definition full9 : st := final (new_tuple1 8 2) [OSet (fd g_bin96 2) true (blob 3 1); OSlot 0 true (vbin 2 6)].
Definition lay9 : layout := mkL 4 1 no_slots (fun _ => g_varbin).
Example C29_grow_case : lived odd_multi full9 /\ can_grow odd_multi none_lent lay9 full9 seven /\
  match retry 1 (manage srt_chunks none_lent true lay9 zeros) full9 seven with
  | Some (true, s') => (cnt s', pivot s', tail s', end_ s') = (2%nat, 2, 14, 288) /\ get s' (KL (fd g_varbin 8)) = Some [6; 5; 5; 5; 5; 5] /\
      get s' (KL (fd g_bin96 2)) = Some [1; 1; 1] /\ get s' (KP 0) = Some [2; 6]
  | _ => False
  end.
Proof.
  split; [apply l_reached; unfold full9; now_reach|]. split; [constructor|vm_compute; repeat split].
  - apply validb_ok; vm_compute; reflexivity.
  - vm_compute; reflexivity.
  - vm_compute; reflexivity.
  - vm_compute; exact I.
  - split; [discriminate|split; [reflexivity|split; [reflexivity|intros [|j] Hj; [split; reflexivity|cbn in Hj; lia]]]].
  - intros n Hn; unfold none_lent; lia.
  - reflexivity.
  - reflexivity.
  - rewrite run1_failed by (vm_compute; reflexivity). eauto.
  - vm_compute; reflexivity.
  - vm_compute; reflexivity.
  - vm_compute; discriminate.
  - vm_compute; discriminate.
  - vm_compute; discriminate.
Qed.

(** A request that can not be met by any tuple is refused and the tuple is not touched. *)
Theorem C29_refusal_changes_nothing : forall srt borrow managed l d s wi wd, 0 <= wi -> 0 <= wd ->
  65535 <= (tail s - head s) - (jv s + jc s) + wi + wd -> manage srt borrow managed l d s wi wd = Failed s.
Proof.
  intros srt borrow managed l d s wi wd I D H. unfold manage. cbv zeta.
  replace (tail s - head s - (jv s + jc s) + (wd + wi) >=? 65535) with true by lia. reflexivity.
Qed.

(** Refuted: the doubled index may not fit.  A tuple of 65531 units with two fields grows: the new
    tuple gets six index slots and its data end behind the limit of 65534 units. *)
Definition brim_history : list op := [OSet (fd g_varbin 2) true (vbin (Z.to_nat 65529) 7); OSet (fd g_u16 4) true (blob 1 9)].
Definition brim : st := final (new_tuple 65531 2) brim_history.
Definition third : op := OSet (fd g_u16 6) true (blob 1 9).
Theorem C29_doubled_index_refuted : exists s o, reached odd_multi s /\ valid odd_multi s o /\ calm s o = true /\ storing o = true /\
  (forall d, retry 1 (manage srt_chunks none_lent true no_lay d) s o = None) /\
  (tail s - head s) + fst (wants s o) + snd (wants s o) <= 65534.
Proof.
  exists brim, third. split; [unfold brim; now_reach|]. split; [apply validb_ok; vm_compute; reflexivity|].
  split; [vm_compute; reflexivity|]. split; [reflexivity|]. split; [|vm_compute; discriminate]. intros d. vm_compute. reflexivity.
Qed.

(** Refuted: with preplaced fields the doubled data are too many for the estimator although the
    tuple would fit. *)
Theorem C29_preplaced_refuted : exists s l o, reached odd_multi s /\ layout_of s l /\ valid odd_multi s o /\ calm s o = true /\ storing o = true /\
  (tail s - head s) + fst (wants s o) + snd (wants s o) <= 65534 /\
  forall d srt borrow, retry 1 (manage srt borrow true l d) s o = Some (false, s).
Proof.
  set (s := final (new_tuple1 40000 2) []). set (o := OSet (fd g_varbin 2) true (vbin (Z.to_nat 40000) 7)).
  exists s, lay9, o. split; [unfold s; now_reach|].
  split; [split; [discriminate|split; [reflexivity|split; [reflexivity|intros [|j] Hj; [split; reflexivity|cbn in Hj; lia]]]]|].
  split; [apply validb_ok; vm_compute; reflexivity|]. split; [vm_compute; reflexivity|]. split; [vm_compute; reflexivity|].
  split; [vm_compute; discriminate|]. intros d srt borrow. rewrite retry_S.
  assert (E : run1 asis s o = Throw s).
  { assert (Q : exists s', run1 asis s o = Throw s'). { rewrite run1_failed by (vm_compute; reflexivity). eauto. }
    destruct Q as (s' & Q). rewrite Q. f_equal. eapply (failed_insert_noop s); [reflexivity|left; exact Q]. }
  rewrite E. replace (wants s o) with (1, 40000) by (vm_compute; reflexivity). cbn [fst snd].
  unfold manage. cbv zeta. change (jv s) with 0. change (jc s) with 0. change (tail s) with 3. change (head s) with 2. 
  change (unallocated s) with 39999. cbn [Z.sub Z.add].
  change (growth_index s 1) with 2. replace (growth_data s 40000) with 262136 by (vm_compute; reflexivity). reflexivity.
Qed.

(** Refuted: a tuple of the C interface is grown by realloc, and its new end is computed as a
    remainder: whatever the tuple was, it afterwards believes to have 4294967286 units. *)
Theorem C29_legacy_growth_refuted : forall srt borrow l d s wi wd s', 
  jv s + jc s + unallocated s < wi + wd -> manage srt borrow false l d s wi wd = Room s' -> end_ s' = 4294967286.
Proof.
  intros srt borrow l d s wi wd s' Un. unfold manage. cbv zeta. destruct (_ || _ || _); [discriminate|].
  replace (wd + wi <=? jv s + jc s + unallocated s) with false by lia.
  match goal with |- context [estimate (growth_index ?x wi)] => set (s1 := x) end. clearbody s1.
  destruct (estimate (growth_index s1 wi) (growth_data s1 wd) (l_bytes l) false) as [space|] eqn:E; [|discriminate].
  intros H. assert (s' = reallocated s1 space (growth_index s1 wi)) as -> by congruence.
  assert (M : space mod 4 = 0).
  { unfold estimate in E. destruct (_ >? _); [discriminate|]. destruct (_ || _); [discriminate|]. assert (Q : forall x y : Z, Some x = Some y -> y = x) by congruence. apply Q in E. subst space. unfold pure_tuple_size, ceil4.
    generalize (growth_index s1 wi). generalize ((growth_data s1 wd + l_bytes l + 3) / 4). clear. intros a b. lia. }
  unfold reallocated. cbv zeta. rewrite M. destruct (_ >? _); reflexivity.
Qed.
Example C29_legacy_case : match manage srt_chunks none_lent false no_lay zeros full9 1 6 with Room s' => end_ s' = 4294967286 | _ => False end.
Proof. vm_compute. reflexivity. Qed.

(** Refuted: making room for the index in place does not stop at 8191 fields; the read-only form of
    such a tuple says that it has none. *)
Theorem C29_too_many_fields_refuted : forall srt borrow managed l d s, TInv s -> uniq odd_multi s -> sorter c_off srt -> jc s = 0 -> jv s = 0 ->
  cnt s = Z.to_nat 8191 -> 1 <= end_ s - (tail s - head s) ->
  exists s', retry 1 (manage srt borrow managed l d) s one_u16 = Some (true, s') /\ cnt s' = Z.to_nat 8192 /\
    forall A, ro_index (asis_mem A s') (asis_ptr A s') = 0.
Proof.
  intros srt borrow managed l d s T U SR J Jv N F.
  assert (VN : valid_new odd_multi one_u16) by (split; [vm_compute; auto|split; [reflexivity|]]; apply (validb_ok odd_multi s one_u16 eq_refl)).
  assert (V : valid odd_multi s one_u16) by exact VN.
  pose proof (step odd_multi s one_u16 T U V ltac:(cbn; reflexivity)) as Q. rewrite retry_S.
  assert (Fin : forall a b, exact_step a b (op_units one_u16) -> cnt a = Z.to_nat 8191 -> cnt b = Z.to_nat 8192 /\
     forall A, ro_index (asis_mem A b) (asis_ptr A b) = 0).
  { intros a b X Na. assert (Cb : cnt b = Z.to_nat 8192) by (rewrite (x_cnt _ _ _ X), Na, <- Z2Nat.inj_succ by discriminate; reflexivity).
    split; [exact Cb|].
    intros A. unfold ro_index, asis_mem, asis_ptr. rewrite half_hi. unfold asis_word. rewrite Z.eqb_refl. unfold header, looseitems_flags. rewrite Cb.
    rewrite Z2Nat.id by discriminate. rewrite Z.shiftr_div_pow2 by lia. change (2 ^ 3) with 8.
    unfold u16. change (2 ^ 16) with 65536. change (Z.shiftl 8192 3) with 65536.
    generalize (tail b - head b + 1). intros z. clear. destruct (pp b >? 0); lia. }
  destruct (run1 asis s one_u16) as [[] s'|s'|] eqn:E; [| |contradiction].
  - exists s'. split; [reflexivity|]. apply (Fin s s'); [|exact N]. exact (adding_exact odd_multi s one_u16 s' VN eq_refl J I E).
  - subst s'. assert (We : wants s one_u16 = (1, 0)) by reflexivity. rewrite We. cbn [fst snd].
    rewrite manage_in_place by (assumption || (unfold unallocated; lia)).
    destruct (rearrange_room odd_multi s srt 1 0 T SR (settled_none s J Jv) ltac:(lia) ltac:(lia) ltac:(unfold unallocated; lia)) as (R & _ & _).
    pose proof (rearrange_shifted s srt 1 0 T J Jv) as Sh. set (s2 := rearrange srt s 1 0) in *.
    assert (N2 : cnt s2 = Z.to_nat 8191).
    { destruct Sh as [->|[x M]]; [auto|]. rewrite (m_cnt _ _ _ M). auto. }
    destruct (wants_enough odd_multi s2 one_u16 (r_inv _ _ _ _ _ R) VN eq_refl I (r_jc _ _ _ _ _ R) (r_jv _ _ _ _ _ R)) as (C2 & s' & E2).
    { apply (r_head _ _ _ _ _ R). } { apply (r_tail _ _ _ _ _ R). }
    exists s'. split; [apply retry_ok; exact E2|]. apply (Fin s2 s'); [|exact N2].
    exact (adding_exact odd_multi s2 one_u16 s' VN eq_refl (r_jc _ _ _ _ _ R) I E2).
Qed.
Example C29_too_many_case : reached odd_multi many /\ jc many = 0 /\ jv many = 0 /\ cnt many = Z.to_nat 8191 /\ 1 <= end_ many - (tail many - head many).
Proof.
  split; [apply C10_many_case|].
  destruct (many_run (Z.to_nat 8191) (new_tuple1 8200 8191) eq_refl ltac:(vm_compute; discriminate)) as (_ & f & outs & R).
  unfold many, final, many_history. rewrite R. split; [reflexivity|]. split; [reflexivity|]. split; [reflexivity|].
  unfold head. cbn [with_idx with_cnt tail pivot cnt end_]. rewrite Nat2Z.inj_add, Z2Nat.id by discriminate. vm_compute. discriminate.
Qed.

(** ** C30, growing tuples: the junk counters are forgotten *)
(** The copy in the larger buffer says that it has no junk though its index holds a hole, and a valid
    history of it ends in undefined behaviour (C01 and C05 exclude that for every history of a tuple
    that did not grow). *)
Definition holey : st := final (new_tuple 13 3) [OSet (fd g_bin128 2) true (blob 4 1); OSet (fd g_bin128 4) true (blob 4 2); ORemove (fd g_bin128 2)].
Definition bigger : op := OSet (fd g_bin512 6) true (blob 16 3).
Theorem C30_growth_refuted : exists s o s', reached odd_multi s /\ valid odd_multi s o /\ calm s o = true /\
  retry 2 (manage srt_chunks none_lent true no_lay zeros) s o = Some (true, s') /\
  jc s' = 0 /\ jv s' = 0 /\ (exists k, (k < cnt s')%nat /\ is_hole (idx s' k) = true) /\
  exists l, Forall (valid odd_multi s') l /\ run asis s' l = None.
Proof.
  exists holey, bigger.
  assert (E : exists s', retry 2 (manage srt_chunks none_lent true no_lay zeros) holey bigger = Some (true, s')).
  { assert (Q : match retry 2 (manage srt_chunks none_lent true no_lay zeros) holey bigger with Some (true, _) => True | _ => False end) by (vm_compute; exact I).
    destruct (retry 2 _ holey bigger) as [[[] s']|]; try contradiction. exists s'. reflexivity. }
  destruct E as [s' E]. exists s'. split; [unfold holey; now_reach|].
  split; [apply validb_ok; vm_compute; reflexivity|]. split; [vm_compute; reflexivity|]. split; [exact E|].
  assert (Q : match retry 2 (manage srt_chunks none_lent true no_lay zeros) holey bigger with
    | Some (_, s) => (jc s =? 0) && (jv s =? 0) && (Nat.ltb 0 (cnt s)) && is_hole (idx s 0) &&
        match run asis s [ORemove (fd g_bin128 4); ORemove (fd g_bin512 6); OSet (fd g_bin128 2) true (blob 4 1)] with None => true | _ => false end
    | None => false end = true) by (vm_compute; reflexivity).
  rewrite E in Q. clear E. apply Bool.andb_true_iff in Q as [Q Q5]. apply Bool.andb_true_iff in Q as [Q Q4].
  apply Bool.andb_true_iff in Q as [Q Q3]. apply Bool.andb_true_iff in Q as [Q1 Q2].
  split; [lia|]. split; [lia|]. split; [exists 0%nat; split; [lia|exact Q4]|].
  exists [ORemove (fd g_bin128 4); ORemove (fd g_bin512 6); OSet (fd g_bin128 2) true (blob 4 1)].
  split; [repeat (apply Forall_cons; [apply validb_ok; reflexivity|]); apply Forall_nil|]. destruct (run asis s' _); [discriminate|reflexivity].
Qed.

(** ** C31 *)
Lemma valid_new_dec o : validb odd_multi full9 o && adding o = true -> valid_new odd_multi o.
Proof.
  intros H. apply andb_prop in H. destruct H as [H A]. apply validb_ok in H. destruct o; cbn [adding] in A; try discriminate; exact H.
Qed.
(** A tuple made in a buffer of the estimated size takes any sequence of additions of at most n
    fields whose values have at most b bytes as stored: every one succeeds and is there afterwards.
    Missing for the full property: sizes where index and data together exceed 65534 units (refuted
    below), and counting the bytes of the values without the words that hold their lengths (refuted
    below). *)
Theorem C31_estimate_partial : forall multi n b l d size ops, 0 <= n -> 0 <= b -> layout_ok l ->
  estimate n b (l_bytes l) false = Some size -> n + (b + l_bytes l + 3) / 4 <= 65534 ->
  Forall (valid_new multi) ops -> forallb adding ops = true -> NoDup (set_descs ops) ->
  Z.of_nat (length ops) <= n -> 4 * sum_units ops <= b ->
  exists s s', construct size n l d = Some s /\ run asis s ops = Some (map (fun _ => true) ops, s') /\ TInv s' /\
    cnt s' = length ops /\ asis_bytes s' <= size /\
    (forall k, single_key multi s k -> get s' k = last_write k (get s k) (combine ops (map (fun _ => true) ops))) /\
    (forall desc, real_desc desc -> multi desc = true -> Permutation (view s' desc) (bag_run desc [] (TupleHist.trace asis s ops))).
Proof.
  intros multi n b l d size ops N B L E Fit V A ND Few Sum.
  destruct (constructed n b l d size N B L E Fit) as (s & Ec & Es & Fo). pose proof (proj1 L) as L0. pose proof (units_of l L0) as LU.
  assert (T : TInv s) by (subst s; apply fresh_TInv; exact Fo).
  assert (U : uniq multi s) by (subst s; apply fresh_uniq).
  destruct (additions_run multi ops s T U) as (s' & C & R & R1 & R2 & R3 & R4 & R5 & R6 & R7 & R8); try (subst s; reflexivity); auto.
  { subst s. unfold head_space. cbn [fresh pivot cnt]. lia. }
  { subst s. unfold tail_space. cbn [fresh end_ tail]. unfold ceil4 in *. lia. }
  exists s, s'. split; [exact Ec|]. split; [exact R|].
  destruct (history multi ops s T U C) as (outs & s2 & R' & _ & T' & _ & _ & G & Bg). rewrite R in R'.
  assert (Q : s2 = s' /\ outs = map (fun _ => true) ops) by (split; congruence). destruct Q as [-> ->].
  split; [exact T'|]. split; [subst s; exact R1|]. split; [|split; [exact G|]].
  - unfold asis_bytes. destruct (estimate_inv _ _ _ _ E) as (_ & _ & _ & ->). unfold head. rewrite R1, R2, R3. subst s. cbn [fresh tail pivot cnt].
    assert (0 <= sum_units ops) by (eapply sum_units_nonneg; exact V).
    assert (0 <= l_units l) by (unfold ceil4 in LU; clear - LU L0; lia).
    assert (u16 (n + l_units l + sum_units ops - (n - Z.of_nat (0 + length ops)) + 1) <= n + l_units l + sum_units ops - (n - Z.of_nat (0 + length ops)) + 1).
    { unfold u16. change (2 ^ 16) with 65536. apply Z.mod_le; lia. }
    unfold ceil4 in *. lia.
  - intros desc Hd Hm. apply Bg; auto. subst s. reflexivity.
Qed.
Definition three : list op := [OSet (fd g_varbin 2) true (vbin 5 7); OAppend (fd g_u16 1) true (blob 1 9); OSet (fd g_bin128 4) true (blob 4 2)].
Example C31_case : estimate 3 36 4 false = Some 96 /\ layout_ok lay9 /\ Forall (valid_new odd_multi) three /\ forallb adding three = true /\
  NoDup (set_descs three) /\ 4 * sum_units three = 36 /\
  match construct 96 3 lay9 zeros with
  | Some s => match run asis s three with Some (_, s') => (tail_space s', head_space s', get s' (KL (fd g_bin128 4))) = (0, 0, Some [2; 2; 2; 2]) | None => False end
  | None => False end.
Proof.
  split; [vm_compute; reflexivity|]. split; [split; [discriminate|intros [|j] Hj; [vm_compute; repeat split; discriminate || reflexivity|cbn in Hj; lia]]|].
  split; [unfold three; repeat (apply Forall_cons; [apply valid_new_dec; vm_compute; reflexivity|]); apply Forall_nil|].
  split; [vm_compute; reflexivity|]. split; [repeat constructor; vm_compute; intuition discriminate|]. split; vm_compute; repeat split.
Qed.

(** Refuted: four characters do not fit a buffer that was estimated for four bytes. *)
Fixpoint packed (b : list Z) : list Z :=
  match b with b0 :: b1 :: b2 :: b3 :: r => b0 + 256 * b1 + 65536 * b2 + 16777216 * b3 :: packed r | _ => [] end.
Theorem C31_payload_bytes_refuted : exists n b size v, Codec.zlen v = b /\ estimate n b 0 false = Some size /\ n + (b + 3) / 4 <= 65534 /\
  let o := OSet (fd g_text 2) true (mkV false (packed (string_store (repeat 0 (Z.to_nat (4 * string_units (Codec.zlen v)))) v))) in
  valid_new odd_multi o /\ 1 <= n /\
  forall d, match construct size n no_lay d with Some s => outcome s [o] = Some [false] | None => False end.
Proof.
  exists 1, 4, 52, [97; 98; 99; 100]. split; [reflexivity|]. split; [reflexivity|]. split; [vm_compute; discriminate|]. cbv zeta.
  split; [apply valid_new_dec; vm_compute; reflexivity|]. split; [lia|]. intros d. vm_compute. reflexivity.
Qed.

(** Refuted: the estimator accepts index and data that together exceed the largest tuple. *)
Theorem C31_largest_refuted : exists n b size o, estimate n b 0 false = Some size /\ valid_new odd_multi o /\ adding o = true /\ 4 * op_units o <= b /\ 1 <= n /\
  forall d, exists s, construct size n no_lay d = Some s /\ run1 asis s o = Throw s.
Proof.
  exists 8191, 262136, 294944, (OSet (fd g_varbin 2) true (vbin (Z.to_nat 60000) 7)). split; [reflexivity|].
  split; [apply valid_new_dec; vm_compute; reflexivity|]. split; [vm_compute; reflexivity|]. split; [vm_compute; discriminate|].
  split; [lia|]. intros d. eexists. split; [reflexivity|]. 
  set (s := fresh _ _ _ _ _ _ d).
  assert (Q : exists s', run1 asis s (OSet (fd g_varbin 2) true (vbin (Z.to_nat 60000) 7)) = Throw s').
  { rewrite run1_failed by (vm_compute; reflexivity). eauto. }
  destruct Q as (s' & Q). rewrite Q. f_equal. eapply (failed_insert_noop s); [reflexivity|left; exact Q].
Qed.

(** Refuted, C interface: more than 8191 items are clamped by the estimate but not by the
    constructor: the buffer that was recommended is never good enough. *)
Theorem C31_fptu_space_refuted : forall items data d, max_fields < items -> 0 <= data ->
  exists size, fptu_space items data = Some size /\ construct size items no_lay d = None.
Proof.
  intros items data d I D. unfold fptu_space. replace (Z.min items max_fields) with max_fields by lia.
  destruct (estimate max_fields (Z.min data max_tuple_bytes_netto) 0 false) as [size|] eqn:E.
  2:{ unfold estimate in E. change (0 >? max_tuple_bytes_netto) with false in E. cbn iota in E.
      replace ((Z.min data max_tuple_bytes_netto >? max_tuple_bytes_netto - 0) || (max_fields >? max_fields)) with false in E by lia. discriminate. }
  exists size. split; [reflexivity|]. unfold construct, estimate. cbn [no_lay l_bytes]. change (0 >? max_tuple_bytes_netto) with false. cbn iota.
  replace ((0 >? max_tuple_bytes_netto - 0) || (items >? max_fields)) with true by lia. reflexivity.
Qed.

(** The size a schema computes for a tuple of the given fields, without preplaced fields: it is
    enough for the serialised form of any tuple that was filled with these fields. *)
Definition fills (average t : Z) (o : op) : Prop :=
  0 <= t /\ is_preplaced t = false /\ descriptor2genus (op_desc o) = tag2genus t /\ (is_fixed_size t = false -> op_units o <= bytes2units average).
Lemma fills_loop average tokens ops : Forall2 (fills average) tokens ops -> forallb adding ops = true -> forall fixed dyn,
  fixed + 4 * dyn + 4 * (Z.of_nat (length ops) + sum_units ops) <= tuple_size_loop tokens average fixed dyn.
Proof.
  induction 1 as [|t o tokens ops (T0 & P & G & S) _ IH]; intros A fixed dyn; [cbn; lia|].
  cbn [forallb] in A. apply andb_prop in A. destruct A as [A Al]. cbn [tuple_size_loop length sum_units fold_right]. rewrite P. fold (sum_units ops).
  specialize (IH Al fixed (dyn + 1 + loose_units (tag2genus t) + (if is_fixed_size t then 0 else bytes2units average))).
  assert (op_units o <= loose_units (tag2genus t) + (if is_fixed_size t then 0 else bytes2units average)); [|lia].
  destruct (is_fixed_size t) eqn:F.
  - rewrite is_fixed_size_arith in F by assumption.
    destruct o as [desc disc v| |desc disc v| | | |]; cbn [adding op_units op_desc] in *; try discriminate; unfold new_units, fixed_genus; rewrite G, F; lia.
  - specialize (S eq_refl). assert (0 <= loose_units (tag2genus t)); [|lia].
    apply loose_units_range.
Qed.
Theorem C31_schema_size_partial : forall multi average tokens ops units n d, fresh_ok units n 0 0 no_slots no_slots ->
  Forall2 (fills average) tokens ops -> Forall (valid_new multi) ops -> forallb adding ops = true -> NoDup (set_descs ops) ->
  Z.of_nat (length ops) <= n -> n + sum_units ops <= units ->
  exists s', run asis (fresh units n 0 0 no_slots no_slots d) ops = Some (map (fun _ => true) ops, s') /\
    asis_bytes s' <= estimate_tuple_size tokens average.
Proof.
  intros multi average tokens ops units n d Fo Fl V A ND Few Sum.
  destruct (additions_run multi ops _ (fresh_TInv _ _ _ _ _ _ d Fo) (fresh_uniq multi _ _ _ _ _ _ d)) as (s' & C & R & R1 & R2 & R3 & R4 & R5 & R6 & R7 & R8); auto.
  { unfold head_space. cbn [fresh pivot cnt]. lia. }
  { unfold tail_space. cbn [fresh end_ tail]. lia. }
  exists s'. split; [exact R|]. unfold asis_bytes, head. rewrite R1, R2, R3. cbn [fresh tail pivot cnt Nat.add].
  pose proof (fills_loop average tokens ops Fl A 4 0) as H. unfold estimate_tuple_size.
  assert (0 <= sum_units ops) by (eapply sum_units_nonneg; exact V).
  assert (u16 (n + 0 + sum_units ops - (n - Z.of_nat (length ops)) + 1) <= n + 0 + sum_units ops - (n - Z.of_nat (length ops)) + 1).
  { unfold u16. change (2 ^ 16) with 65536. apply Z.mod_le; lia. }
  lia.
Qed.
Definition loose_three : list Z := [make_tag g_varbin 2 false true false; make_tag g_u16 1 true true false; make_tag g_bin128 4 false true false].
Example C31_schema_case : Forall2 (fills 20) loose_three three /\ Forall (valid_new odd_multi) three /\ forallb adding three = true /\ NoDup (set_descs three) /\
  fresh_ok 12 3 0 0 no_slots no_slots /\ 3 + sum_units three = 12 /\ estimate_tuple_size loose_three 20 = 52 /\
  match run asis (fresh 12 3 0 0 no_slots no_slots zeros) three with Some (_, s') => asis_bytes s' = 52 | None => False end.
Proof.
  split; [unfold loose_three, three; repeat constructor; vm_compute; discriminate|].
  destruct C31_case as (_ & _ & A & B & C & _). split; [exact A|]. split; [exact B|]. split; [exact C|].
  split; [constructor; try (vm_compute; repeat split; discriminate); intros j Hj; inversion Hj|]. split; vm_compute; repeat split.
Qed.

(** Refuted: with preplaced fields the word of the header is forgotten.  Whatever the preplaced
    fields of fixed size are, the computed size is smaller than the serialised form of a tuple that
    has just been made. *)
Lemma preplaced_loop average pb tokens : Forall (fun t => is_preplaced t = true /\ is_fixed_size t = true /\ tag2offset t + tag2indysize t <= pb) tokens ->
  forall fixed, tuple_size_loop tokens average fixed 0 <= Z.max fixed pb.
Proof.
  induction 1 as [|t tokens (P & F & L) _ IH]; intros fixed; [cbn; lia|]. cbn [tuple_size_loop]. rewrite P, F. cbv zeta. rewrite Z.add_0_r.
  destruct (_ =? _); specialize (IH (Z.max fixed (tag2offset t + tag2indysize t))); lia.
Qed.
Theorem C31_schema_size_refuted : forall average tokens pb units n d,
  Forall (fun t => is_preplaced t = true /\ is_fixed_size t = true /\ tag2offset t + tag2indysize t <= pb) tokens ->
  0 < pb -> fresh_ok units n (bytes2units pb) 0 no_slots no_slots ->
  estimate_tuple_size tokens average < asis_bytes (fresh units n (bytes2units pb) 0 no_slots no_slots d).
Proof.
  intros average tokens pb units n d T P Fo. pose proof (preplaced_loop average pb tokens T 4) as H. unfold estimate_tuple_size.
  pose proof (fo_pvt _ _ _ _ _ _ Fo). pose proof (fo_fit _ _ _ _ _ _ Fo). unfold asis_bytes, head. cbn [fresh tail pivot cnt].
  change (Z.of_nat 0) with 0. rewrite bytes2units_div in *. unfold u16. change (2 ^ 16) with 65536. rewrite Z.mod_small by lia. lia.
Qed.
Example C31_schema_refuted_case : let t := match token_preplaced 0 g_u32 false false with Some t => t | None => 0 end in
  is_preplaced t = true /\ is_fixed_size t = true /\ tag2offset t + tag2indysize t = 4 /\ estimate_tuple_size [t] 0 = 4 /\
  asis_bytes (fresh 10 2 1 0 no_slots no_slots zeros) = 8.
Proof. vm_compute. repeat split. Qed.

Print Assumptions C29_retry_in_place_partial.
Print Assumptions C29_grow_partial.
Print Assumptions C29_refusal_changes_nothing.
Print Assumptions C29_doubled_index_refuted.
Print Assumptions C29_preplaced_refuted.
Print Assumptions C29_legacy_growth_refuted.
Print Assumptions C29_too_many_fields_refuted.
Print Assumptions C30_growth_refuted.
Print Assumptions C31_estimate_partial.
Print Assumptions C31_payload_bytes_refuted.
Print Assumptions C31_largest_refuted.
Print Assumptions C31_fptu_space_refuted.
Print Assumptions C31_schema_size_partial.
Print Assumptions C31_schema_size_refuted.

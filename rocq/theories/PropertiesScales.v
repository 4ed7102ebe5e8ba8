(** * PropertiesScales: C82, tuples made by a named scale. *)
From Verif Require Import Base Tag TagProofs Codec Gear GearBase GearSearch GearProofs GearAlloc GearRealloc Tuple TupleProofs TupleSteps TupleView TupleOps TupleMore
  TupleHist TupleFacts PropertiesTuple Hippeus Scan Audit Image ImageProofs PropertiesImage GearOpt GearOptProofs PropertiesOpt Growth GrowthProofs PropertiesGrowth PolicyProofs Scales.
From Coq Require Import ZifyBool ZifyNat Permutation.
Ltac Zify.zify_post_hook ::= Z.div_mod_to_equations.

(** ** C82 *)
Lemma scale_table k : (k < 5)%nat ->
  (items_of k, bytes_of_scale k, more_of k) = nth k [(32, 1023, 895); (128, 4095, 3583); (512, 16383, 14335); (2048, 65534, 57343); (8191, 262136, 229372)] (0, 0, 0).
Proof. intros K. do 5 (destruct k as [|k]; [vm_compute; reflexivity|]). lia. Qed.
Lemma scale_range k : (k < 5)%nat -> 32 <= items_of k <= 8191 /\ 1023 <= bytes_of_scale k <= 262136 /\ 895 <= more_of k <= 229372 /\
  ((k < 4)%nat -> items_of k <= 2048 /\ bytes_of_scale k <= 65534 /\ more_of k <= 57343).
Proof. intros K. do 5 (destruct k as [|k]; [vm_compute; intuition (discriminate || lia)|]). lia. Qed.

(** A new tuple of a scale below the largest is made with every schema that leaves place for it, and has
    room for all the promised items and bytes at once; so a history that adds no more never fails (C31). *)
Theorem C82_new_partial : forall borrow k l d, lends borrow -> (k < 4)%nat -> 0 <= l_bytes l ->
  bytes_of_scale k + l_bytes l <= max_tuple_bytes_netto -> items_of k + (bytes_of_scale k + l_bytes l + 3) / 4 <= 65534 ->
  exists s, new_scaled borrow k l d = Some s /\ head s = items_of k /\ cnt s = 0%nat /\ tail s = base s /\ pp s = l_units l /\
    bytes_of_scale k / 4 <= tail_space s.
Proof.
  intros borrow k l d B K L F G. destruct (scale_range k ltac:(lia)) as (I & By & M & _). pose proof (units_of l L) as LU.
  change max_tuple_bytes_netto with 262136 in *.
  unfold new_scaled, create_new. rewrite estimate_some by (change max_fields with 8191; change max_tuple_bytes_netto with 262136; lia).
  set (need := 44 + items_of k * 4 + ceil4 (bytes_of_scale k + l_bytes l)).
  assert (N : 0 < need <= buffer_limit) by (unfold need, ceil4, buffer_limit; lia). specialize (B need N).
  rewrite construct_some; [|change max_fields with 8191; lia|change max_tuple_bytes_netto with 262136; lia|unfold need, ceil4 in *; lia].
  eexists. split; [reflexivity|]. unfold head, base, tail_space. cbn [fresh pivot cnt tail end_ pp].
  repeat split; try lia. unfold need, ceil4 in *. lia.
Qed.
(** The constructor asks for the bytes of the scale besides the preplaced part, though
    estimate_space_for_tuple() counts the preplaced part in.  It succeeds only if both fit, at any scale. *)
Theorem C82_new_exact : forall borrow k l d, lends borrow -> (k < 5)%nat -> 0 <= l_bytes l ->
  ((exists s, new_scaled borrow k l d = Some s) <-> bytes_of_scale k + l_bytes l <= max_tuple_bytes_netto).
Proof.
  intros borrow k l d B K L. destruct (scale_range k ltac:(lia)) as (I & By & M & _). change max_tuple_bytes_netto with 262136. split.
  - intros [s E]. unfold new_scaled, create_new in E. destruct (estimate _ _ _ _) as [need|] eqn:Es; [|discriminate].
    apply estimate_inv in Es. change max_tuple_bytes_netto with 262136 in Es. lia.
  - intros F. unfold new_scaled, create_new. rewrite estimate_some by (change max_fields with 8191; change max_tuple_bytes_netto with 262136; lia).
    set (need := 44 + items_of k * 4 + ceil4 (bytes_of_scale k + l_bytes l)).
    assert (N : 0 < need <= buffer_limit) by (unfold need, ceil4, buffer_limit; lia). specialize (B need N).
    rewrite construct_some; [|change max_fields with 8191; lia|change max_tuple_bytes_netto with 262136; lia|unfold need, ceil4 in *; lia].
    eexists. reflexivity.
Qed.
(** So the largest scale cannot be had with any schema that has a preplaced field, although the space it
    needs is estimated and can be allocated. *)
Theorem C82_extreme_schema_refuted : forall borrow l d, lends borrow -> 0 < l_bytes l <= max_tuple_bytes_netto ->
  new_scaled borrow 4 l d = None /\ exists n, granulated (l_bytes l) 4 = Some n /\ n <= 294944 /\ n <= borrow n <= buffer_limit.
Proof.
  intros borrow l d B L. change max_tuple_bytes_netto with 262136 in *. split.
  - destruct (new_scaled borrow 4 l d) as [s|] eqn:E; [|reflexivity]. exfalso.
    assert (X : exists s, new_scaled borrow 4 l d = Some s) by eauto. apply C82_new_exact in X; [|assumption|lia|lia].
    change (bytes_of_scale 4) with 262136 in X. change max_tuple_bytes_netto with 262136 in X. lia.
  - unfold granulated. change (nth 4 scale_bytes 0) with 262136. change (nth 4 scale_items 0) with 8191. cbv zeta.
    rewrite estimate_some by (change max_fields with 8191; change max_tuple_bytes_netto with 262136; lia).
    eexists. split; [reflexivity|]. assert (Q : 44 + 8191 * 4 + ceil4 (262136 - Z.min 262136 (l_bytes l) + l_bytes l) = 294944) by (unfold ceil4; lia).
    rewrite Q. split; [lia|]. apply B. unfold buffer_limit. lia.
Qed.
(** Without preplaced fields it is made, with an eighth less room for payload than it promises. *)
Theorem C82_extreme_room_refuted : forall borrow l d, lends borrow -> l_bytes l = 0 ->
  exists s, new_scaled borrow 4 l d = Some s /\ head s = 8191 /\ 4 * tail_space s = 229372 /\ 229372 < bytes_of_scale 4.
Proof.
  intros borrow l d B L. unfold new_scaled, create_new. change (items_of 4) with 8191. change (bytes_of_scale 4) with 262136.
  rewrite estimate_some by (rewrite ?L; change max_fields with 8191; change max_tuple_bytes_netto with 262136; lia). rewrite L.
  change (44 + 8191 * 4 + ceil4 (262136 + 0)) with 294944.
  assert (Bn : 294944 <= borrow 294944 <= buffer_limit) by (apply B; unfold buffer_limit; lia).
  rewrite construct_some; [|change max_fields with 8191; lia|change max_tuple_bytes_netto with 262136; lia|rewrite L; change (ceil4 0) with 0; lia].
  eexists. split; [reflexivity|]. unfold head, tail_space. cbn [fresh pivot cnt tail end_ pp].
  assert (U : l_units l = 0) by (unfold l_units; rewrite L; reflexivity). rewrite U. repeat split; lia.
Qed.

(** *** Clones *)
Section Clones.
  Variables (borrow : Z -> Z) (A : Z) (s : st) (l : layout) (d : Z -> Z).
  Hypothesis B : lends borrow.
  Hypothesis T : TInv s.
  Hypothesis Few : Z.of_nat (cnt s) <= max_fields.
  Hypothesis LO : layout_of s l.
  Variables (more payload : Z).
  Hypothesis Hm : 0 <= more <= max_fields.
  Hypothesis Hp : 0 <= payload <= max_tuple_bytes_netto.
  Definition whole : Z := Z.min max_tuple_bytes_netto (4 * (tail s - pivot s) + payload).
  Definition reserve : Z := Z.min max_fields (Z.of_nat (cnt s) + more).
  Lemma sized_big : tail s - head s + 1 <= 65535.
  Proof. pose proof (seen_cfg s T) as C. unfold head, base in *. lia. Qed.
  Lemma sized_exact : (exists s', copy_sized borrow A s more payload l d = Some s') <-> whole + l_bytes l <= max_tuple_bytes_netto.
  Proof.
    pose proof (seen_cfg s T) as C. pose proof sized_big as Big. destruct LO as (L1 & _). unfold base in *.
    unfold copy_sized, create_copy, estimate_ro, from_ro. rewrite (asis_index A s T Few Big), (asis_payload A s T Few Big). fold whole. fold reserve.
    assert (R : 0 <= reserve <= 8191) by (unfold reserve; change max_fields with 8191 in *; lia).
    assert (Wh : 4 * (tail s - pivot s) <= whole <= 262136) by (unfold whole; change max_tuple_bytes_netto with 262136; lia).
    change max_fields with 8191 in *. change max_tuple_bytes_netto with 262136 in *.
    replace (more >? 8191) with false by lia. replace (payload >? 262136) with false by lia. unfold estimate.
    change max_fields with 8191. change max_tuple_bytes_netto with 262136.
    destruct (l_bytes l >? 262136) eqn:E1. { split; [intros [s' E]; discriminate|lia]. }
    replace (reserve >? 8191) with false by lia. rewrite !Bool.orb_false_r.
    destruct (whole >? 262136 - l_bytes l) eqn:E2. { split; [intros [s' E]; discriminate|lia]. }
    split; [lia|intros _].
    set (need := pure_tuple_size + reserve * 4 + ceil4 whole).
    assert (N : 0 < need <= buffer_limit) by (unfold need, pure_tuple_size, ceil4, buffer_limit; lia). specialize (B need N).
    replace (borrow need <? need) with false by lia. replace (borrow need >? 2 * 262136) with false by (unfold buffer_limit in *; lia).
    replace (4 * (tail s - pivot s) >? 262136 - l_bytes l) with false by lia. rewrite ?Bool.orb_false_r.
    replace (borrow need <? pure_tuple_size + reserve * 4 + ceil4 (4 * (tail s - pivot s))) with false by (unfold need, ceil4 in *; lia).
    eexists. reflexivity.
  Qed.
  Lemma sized_room s' : distinct_slots s -> copy_sized borrow A s more payload l d = Some s' ->
    let p := reserve in
    pivot s' = p /\ cnt s' = cnt s /\ tail s' = p + (tail s - pivot s) /\
    Z.min 65534 (p + (whole + 3) / 4) <= end_ s' <= 65534 /\
    moved s s' (p - pivot s) /\ (p + (tail s - pivot s) <= 65534 -> TInv s').
  Proof.
    intros DS E. pose proof (proj1 sized_exact (ex_intro _ s' E)) as F. pose proof (seen_cfg s T) as C. pose proof sized_big as Big. destruct LO as (L1 & _).
    unfold copy_sized, create_copy in E. destruct (estimate_ro _ _ _ _ _) as [need|] eqn:Es; [|discriminate].
    unfold estimate_ro in Es. rewrite (asis_index A s T Few Big), (asis_payload A s T Few Big) in Es. fold whole in Es. fold reserve in Es.
    destruct (more >? max_fields); [discriminate|]. destruct (payload >? max_tuple_bytes_netto); [discriminate|].
    unfold estimate in Es. destruct (l_bytes l >? max_tuple_bytes_netto); [discriminate|]. destruct (_ || _); [discriminate|].
    assert (En : need = 44 + reserve * 4 + ceil4 whole) by (injection Es as <-; reflexivity). clear Es.
    assert (R : 0 <= reserve <= 8191) by (unfold reserve; change max_fields with 8191 in *; lia).
    assert (Wh : 0 <= whole <= 262136) by (unfold whole, base in *; change max_tuple_bytes_netto with 262136 in *; lia).
    assert (N : 0 < need <= buffer_limit) by (rewrite En; unfold ceil4, buffer_limit; lia). pose proof (B need N) as Bn.
    destruct (borrow need <? need) eqn:E1; [discriminate|].
    destruct (from_ro_moved A s l T DS Few Big LO (jc s, jv s) (borrow need) more d s' ltac:(lia) ltac:(rewrite En in *; unfold ceil4 in *; lia) eq_refl eq_refl E) as (MV & PV & E2 & E3 & _).
    assert (EE : end_ s' = Z.min 65534 ((borrow need - 44) / 4)).
    { unfold from_ro in E. destruct (more >? max_fields); [discriminate|]. destruct (borrow need >? _); [discriminate|].
      destruct (estimate _ _ _ _) as [z|]; [|discriminate]. destruct (borrow need <? z); [discriminate|]. assert (Q : forall a b : st, Some a = Some b -> b = a) by (intros a b Q; congruence). apply Q in E. rewrite E. cbn [end_].
      change max_tuple_units_netto with 65534. unfold pure_tuple_size, u32. rewrite Z.shiftr_div_pow2 by lia. change (2 ^ 2) with 4. change (2 ^ 32) with 4294967296.
      rewrite Z.mod_small; [reflexivity|]. unfold buffer_limit in *. rewrite En in *. unfold ceil4 in *. lia. }
    fold reserve in PV. cbv zeta. rewrite PV in *. split; [reflexivity|]. split; [apply (m_cnt _ _ _ MV)|].
    split; [rewrite (m_tail _ _ _ MV); lia|]. split; [rewrite EE; rewrite En in *; unfold ceil4 in *; lia|]. split; [exact MV|].
    intros Fit. apply (moved_inv s s' _ MV T); [rewrite PV; unfold reserve in *; change max_fields with 8191 in *; lia|]. split; [apply E3; lia|exact E2].
  Qed.
End Clones.

(** A clone at a named scale, or one with as much reserve as the source, is made exactly when the payload,
    the reserve, and once more the preplaced part, fit the limit; without a preplaced part always. *)
Theorem C82_clone_exact : forall borrow A s l d k, lends borrow -> TInv s -> Z.of_nat (cnt s) <= max_fields -> layout_of s l -> (k < 5)%nat ->
  ((exists s', clone_scaled borrow A s k l d = Some s') <->
   l_bytes l = 0 \/ 4 * (tail s - pivot s) + more_of k + l_bytes l <= max_tuple_bytes_netto).
Proof.
  intros borrow A s l d k B T Few LO K. destruct (scale_range k K) as (I & _ & M & _). unfold clone_scaled.
  rewrite (sized_exact borrow A s l d B T Few LO) by (change max_fields with 8191; change max_tuple_bytes_netto with 262136; lia).
  destruct LO as (L1 & _). unfold whole. change max_tuple_bytes_netto with 262136. lia.
Qed.
Theorem C82_clone_partial : forall multi borrow A s l d k s', lends borrow -> reached multi s -> distinct_slots s -> Z.of_nat (cnt s) <= max_fields ->
  layout_of s l -> (k < 5)%nat -> clone_scaled borrow A s k l d = Some s' ->
  Z.min max_fields (Z.of_nat (cnt s) + items_of k) + (tail s - pivot s) + (more_of k + 3) / 4 <= 65534 ->
  TInv s' /\ (forall r, field s' r = as_u32 (field s r)) /\
  head s' = Z.min (items_of k) (max_fields - Z.of_nat (cnt s)) /\ more_of k <= 4 * tail_space s'.
Proof.
  intros multi borrow A s l d k s' B R DS Few LO K E Fit. destruct (reached_inv multi s R) as [T _]. destruct (scale_range k K) as (I & _ & M & _).
  pose proof (seen_cfg s T) as C. unfold clone_scaled in E.
  destruct (sized_room borrow A s l d B T Few LO (items_of k) (more_of k) ltac:(change max_fields with 8191; lia) ltac:(change max_tuple_bytes_netto with 262136; lia) s' DS E)
    as (P & Cn & Tl & En & MV & TI). unfold reserve, whole, base in *.
  change max_fields with 8191 in *. change max_tuple_bytes_netto with 262136 in *.
  split; [apply TI; lia|]. split; [intros r; apply (mv_field s s' _ MV T)|]. unfold head, tail_space. rewrite P, Cn, Tl. lia.
Qed.
(** When the reserve of items does not fit besides the payload, the clone is made nevertheless, with the end
    of its payload behind the end it records; at any scale. *)
Theorem C82_clone_overflow_refuted : forall borrow A s l d k, lends borrow -> TInv s -> distinct_slots s -> Z.of_nat (cnt s) <= max_fields -> layout_of s l ->
  (k < 5)%nat -> l_bytes l = 0 -> 65534 < Z.min max_fields (Z.of_nat (cnt s) + items_of k) + (tail s - pivot s) ->
  exists s', clone_scaled borrow A s k l d = Some s' /\ end_ s' < tail s'.
Proof.
  intros borrow A s l d k B T DS Few LO K L F. destruct (scale_range k K) as (I & _ & M & _).
  destruct (proj2 (C82_clone_exact borrow A s l d k B T Few LO K) (or_introl L)) as [s' E]. exists s'. split; [exact E|].
  destruct (sized_room borrow A s l d B T Few LO (items_of k) (more_of k) ltac:(change max_fields with 8191; lia) ltac:(change max_tuple_bytes_netto with 262136; lia) s' DS E)
    as (P & Cn & Tl & En & MV & TI). unfold reserve in *. lia.
Qed.
Definition exact_buffer (n : Z) : Z := n.
Lemma exact_lends : lends exact_buffer.
Proof. intros n H. unfold exact_buffer. lia. Qed.
Definition brimful : st := final (new_tuple 65534 1) [OSet (fd g_varbin 2) true (vbin (Z.to_nat 65530) 7)].
Example C82_clone_overflow_case : reached odd_multi brimful /\ cnt brimful = 1%nat /\ layout_of brimful no_layout /\
  65534 < Z.min max_fields (Z.of_nat (cnt brimful) + items_of 0) + (tail brimful - pivot brimful).
Proof.
  split; [unfold brimful; now_reach|]. split; [vm_compute; reflexivity|]. split; [|vm_compute; reflexivity].
  split; [cbn; lia|]. split; [vm_compute; reflexivity|]. assert (N : nslots brimful = 0%nat) by (vm_compute; reflexivity).
  split; [rewrite N; reflexivity|]. intros j Hj. rewrite N in Hj. lia.
Qed.
(** The largest scale can be had for no tuple with preplaced fields and more than 32 KB of payload. *)
Theorem C82_clone_extreme_refuted : forall borrow A s l d, lends borrow -> TInv s -> Z.of_nat (cnt s) <= max_fields -> layout_of s l ->
  0 < l_bytes l -> 32764 <= 4 * (tail s - pivot s) -> clone_scaled borrow A s 4 l d = None.
Proof.
  intros borrow A s l d B T Few LO L P. destruct (clone_scaled borrow A s 4 l d) as [s'|] eqn:E; [|reflexivity]. exfalso.
  assert (X : exists s', clone_scaled borrow A s 4 l d = Some s') by eauto. apply C82_clone_exact in X; [|assumption|assumption|assumption|assumption|lia].
  change (more_of 4) with 229372 in X. change max_tuple_bytes_netto with 262136 in X. lia.
Qed.

(** *** A clone with as much reserve as the source *)
Theorem C82_alike_exact : forall borrow A s l d, lends borrow -> TInv s -> pivot s <= max_fields -> layout_of s l ->
  ((exists s', clone_alike borrow A s l d = Some s') <-> 4 * (end_ s - pivot s) + l_bytes l <= max_tuple_bytes_netto).
Proof.
  intros borrow A s l d B T Pv LO. pose proof (seen_cfg s T) as C. unfold clone_alike, tail_space, head, base in *.
  change max_fields with 8191 in *.
  rewrite (sized_exact borrow A s l d B T ltac:(change max_fields with 8191; lia) LO) by (change max_fields with 8191; change max_tuple_bytes_netto with 262136; lia).
  unfold whole. change max_tuple_bytes_netto with 262136. lia.
Qed.
Theorem C82_alike : forall multi borrow A s l d s', lends borrow -> reached multi s -> distinct_slots s -> pivot s <= max_fields ->
  layout_of s l -> clone_alike borrow A s l d = Some s' ->
  TInv s' /\ (forall r, field s' r = as_u32 (field s r)) /\ pivot s' = pivot s /\ tail s' = tail s /\ end_ s <= end_ s' /\ jc s' = jc s /\ jv s' = jv s.
Proof.
  intros multi borrow A s l d s' B R DS Pv LO E. destruct (reached_inv multi s R) as [T _]. pose proof (seen_cfg s T) as C.
  unfold clone_alike, tail_space, head, base in *. change max_fields with 8191 in *.
  destruct (sized_room borrow A s l d B T ltac:(change max_fields with 8191; lia) LO (pivot s - Z.of_nat (cnt s)) (4 * (end_ s - tail s))
     ltac:(change max_fields with 8191; lia) ltac:(change max_tuple_bytes_netto with 262136; lia) s' DS E) as (P & Cn & Tl & En & MV & TI).
  unfold reserve, whole in *. change max_fields with 8191 in *. change max_tuple_bytes_netto with 262136 in *.
  split; [apply TI; lia|]. split; [intros r; apply (mv_field s s' _ MV T)|].
  rewrite (m_jc _ _ _ MV), (m_jv _ _ _ MV). repeat split; lia.
Qed.
(** Tuples that were made at a scale with a schema can lack a clone: the double count again. *)
Theorem C82_alike_refuted : exists borrow l s, lends borrow /\ layout_of s l /\ reached odd_multi s /\ new_scaled borrow 3 l zeros = Some s /\
  forall A d, clone_alike borrow A s l d = None.
Proof.
  set (l := mkL 100000 0 no_slots no_slots).
  assert (R : reached odd_multi (fresh 43432 2048 25000 0 no_slots no_slots zeros)).
  { apply (reached_intro odd_multi 43432 2048 25000 0 no_slots no_slots zeros [] [] _); [|reflexivity|reflexivity].
    constructor; unfold no_slots; intros; lia. }
  assert (LO : layout_of (fresh 43432 2048 25000 0 no_slots no_slots zeros) l).
  { split; [cbn; lia|]. split; [vm_compute; reflexivity|]. split; [reflexivity|]. intros j Hj. cbn in Hj. lia. }
  exists exact_buffer, l, (fresh 43432 2048 25000 0 no_slots no_slots zeros).
  split; [exact exact_lends|]. split; [exact LO|]. split; [exact R|]. split; [vm_compute; reflexivity|].
  intros A d. destruct (clone_alike _ _ _ _ _) as [s'|] eqn:E; [|reflexivity]. exfalso.
  assert (X : exists s', clone_alike exact_buffer A (fresh 43432 2048 25000 0 no_slots no_slots zeros) l d = Some s') by eauto.
  apply C82_alike_exact in X; [|exact exact_lends|apply (reached_inv _ _ R)|vm_compute; discriminate|exact LO].
  vm_compute in X. apply X. reflexivity.
Qed.

(** *** Opening bytes at a scale *)
(** Opening the bytes of a tuple is the same as cloning the tuple. *)
Theorem C82_open : forall multi borrow A s schema l d k, reached multi s -> distinct_slots s -> schema_of s schema -> layout_of s l ->
  Z.of_nat (cnt s) + Z.of_nat (nslots s) <= max_fields -> tail s - head s + 1 <= 65534 -> asis_ptr A s <> 0 ->
  open_scaled borrow (asis_mem A s) (asis_ptr A s) (asis_bytes s) k schema l d = clone_scaled borrow A s k l d.
Proof.
  intros multi borrow A s schema l d k R DS SO LO Few Big NN. destruct (reached_inv multi s R) as [T _].
  unfold open_scaled, create_from_buffer. rewrite (asis_accepted A s schema T DS SO Few Big NN).
  unfold clone_scaled, copy_sized, create_copy. reflexivity.
Qed.

Definition scaled9 : option st := clone_scaled exact_buffer 4096 before9 1 layout9 zeros.
Example C82_case : new_scaled exact_buffer 2 layout9 zeros <> None /\
  match scaled9 with
  | Some s' => head s' = 128 /\ 3583 <= 4 * tail_space s' /\ field s' (RL 0) = Some (fd g_varbin 2, [5; 1; 1; 1; 1]) /\ jc s' = 1
  | None => False
  end /\
  match clone_alike exact_buffer 4096 before9 layout9 zeros with Some s' => end_ s' = end_ before9 /\ pivot s' = 6 | None => False end.
Proof. split; [vm_compute; discriminate|]. split; vm_compute; repeat split; discriminate. Qed.

Print Assumptions C82_new_partial.
Print Assumptions C82_new_exact.
Print Assumptions C82_extreme_schema_refuted.
Print Assumptions C82_extreme_room_refuted.
Print Assumptions C82_clone_exact.
Print Assumptions C82_clone_partial.
Print Assumptions C82_clone_overflow_refuted.
Print Assumptions C82_clone_extreme_refuted.
Print Assumptions C82_alike_exact.
Print Assumptions C82_alike.
Print Assumptions C82_alike_refuted.
Print Assumptions C82_open.

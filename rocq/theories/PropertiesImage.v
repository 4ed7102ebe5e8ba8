(** * Properties of the serialised form: C09, C10, C30 *)
From Verif Require Import Base Tag TagProofs Hippeus HippeusProofs Scan Codec Gear GearBase GearSearch GearProofs
  Tuple TupleProofs TupleSteps TupleView TupleOps TupleMore TupleHist TupleFacts PropertiesTuple Audit AuditProofs Image ImageProofs.
From Coq Require Import ZifyBool ZifyNat Permutation.
Ltac Zify.zify_post_hook ::= Z.div_mod_to_equations.

(** ** C10. Whatever the library builds passes validation *)
(** The serialised form of every tuple that calm histories lead to is accepted, and exactly its
    holes are reported; so is the modifiable form (rw_audit, which also compares the counters and
    forbids touching holes).  Wherever the buffer lies. *)
Theorem C10_accepted_partial : forall multi s schema A, reached multi s -> distinct_slots s -> schema_of s schema ->
  Z.of_nat (cnt s) + Z.of_nat (nslots s) <= max_fields ->
  (tail s - head s + 1 <= 65534 -> asis_ptr A s <> 0 ->
   snd (ro_audit (asis_mem A s) (asis_ptr A s) (asis_bytes s) schema) = Good (sumn (cnt s) (hcount s), sumn (cnt s) (hvol s))) /\
  snd (rw_audit (bytes_of A (word s)) A (head s) (pivot s) (tail s) (end_ s) (jc s) (jv s) schema) = Good tt.
Proof.
  intros multi s schema A R DS SO Few. destruct (reached_inv multi s R) as [T _]. split.
  - intros Big NN. pose proof (v_acc _ _ (t_inv _ T)) as acc. pose proof (i_jc _ _ _ _ _ _ acc) as J1. pose proof (i_jv _ _ _ _ _ _ acc) as J2.
    rewrite J1, J2, !Z.add_0_r. apply asis_accepted; assumption.
  - apply rw_accepted; assumption.
Qed.
(** the tuple after nine calls has four entries (one of them a hole of two units) and a preplaced
    variable-length field *)
Definition schema9 : option sch := Some (mkSch 4 [(g_varbin, 0)]).
Example C10_case : reached odd_multi before9 /\ distinct_slots before9 /\ schema_of before9 schema9 /\
  Z.of_nat (cnt before9) + Z.of_nat (nslots before9) <= max_fields /\ tail before9 - head before9 + 1 <= 65534 /\ asis_ptr 4096 before9 <> 0 /\
  cnt before9 = 4%nat /\ nslots before9 = 1%nat /\ tail before9 - head before9 + 1 = 19 /\
  snd (ro_audit (asis_mem 4096 before9) (asis_ptr 4096 before9) (asis_bytes before9) schema9) = Good (1, 2).
Proof.
  split; [now_reach|]. assert (N : nslots before9 = 1%nat) by (vm_compute; reflexivity).
  split; [intros i j Hi Hj _; lia|]. split; [vm_compute; repeat split; discriminate|]. vm_compute. repeat split; discriminate.
Qed.
(** Outside calm histories the library builds tuples its own validator rejects: the same call
    history as for C01. *)
Theorem C10_refuted : exists l outs s',
  run asis (new_tuple 60 6) l = Some (outs, s') /\ outs = repeat true (length l) /\ tail s' - head s' + 1 <= 65534 /\
  snd (ro_audit (asis_mem 4096 s') (asis_ptr 4096 s') (asis_bytes s') None) = Trouble /\
  snd (rw_audit (bytes_of 4096 (word s')) 4096 (head s') (pivot s') (tail s') (end_ s') (jc s') (jv s') None) = Trouble.
Proof.
  exists split_history, (repeat true 5), (final (new_tuple 60 6) split_history).
  split; [apply run_final; vm_compute; reflexivity|]. vm_compute. repeat split; discriminate.
Qed.
(** A tuple that fills the largest buffer is always rejected: its serialised form has 65535 units,
    the validator allows 65534. *)
Theorem C10_full_tuple_refuted : forall s A schema, TInv s -> Z.of_nat (cnt s) <= max_fields ->
  head s = 0 -> tail s = 65534 -> snd (ro_audit (asis_mem A s) (asis_ptr A s) (asis_bytes s) schema) = Trouble.
Proof.
  intros s A schema T Few H1 H2. assert (Big : tail s - head s + 1 <= 65535) by lia.
  unfold ro_audit, lite_checkup. rewrite (asis_size A s T Big), H1, H2. destruct (asis_ptr A s =? 0); reflexivity.
Qed.
Definition full_history : list op := [OSet (fd g_varbin 2) true (vbin (Z.to_nat 65533) 7)].
Example C10_full_case : reached odd_multi (final (new_tuple 65534 1) full_history) /\
  head (final (new_tuple 65534 1) full_history) = 0 /\ tail (final (new_tuple 65534 1) full_history) = 65534 /\
  cnt (final (new_tuple 65534 1) full_history) = 1%nat.
Proof. split; [now_reach|]. vm_compute. repeat split. Qed.
(** A tuple with more fields of the index and variable-length preplaced fields together than
    max_fields makes the validator throw (and the code calls it a bug). *)
Theorem C10_many_fields_refuted : forall s A schema, TInv s -> schema_of s schema -> Z.of_nat (cnt s) <= max_fields ->
  max_fields < Z.of_nat (cnt s) + Z.of_nat (nslots s) -> tail s - head s + 1 <= 65534 -> asis_ptr A s <> 0 ->
  snd (ro_audit (asis_mem A s) (asis_ptr A s) (asis_bytes s) schema) = Thrown.
Proof.
  intros s A schema T SO Few Many Big NN. assert (Big' : tail s - head s + 1 <= 65535) by lia.
  unfold ro_audit. destruct (lite_checkup_ok A s T Few Big NN) as (t & E). rewrite E. cbn [bindc].
  rewrite (asis_index A s T Few Big'), Nat2Z.id. unfold audit_tuple. rewrite (nst_of s schema T SO).
  replace (Z.of_nat (cnt s) + Z.of_nat (nslots s) >? max_fields) with true by lia. reflexivity.
Qed.
Definition one_u16 : op := OAppend (fd g_u16 1) true (blob 1 9).
Definition many_history : list op := repeat one_u16 (Z.to_nat 8191).
Definition many : st := final (new_tuple1 8200 8191) many_history.
(** in a tuple without junk an appended in-place field takes one index slot and nothing else *)
Lemma one_u16_step s : jc s = 0 -> 1 <= head_space s ->
  exists f, run1 asis s one_u16 = Ok tt (with_idx (with_cnt s (S (cnt s))) f).
Proof.
  intros J H. unfold run1, one_u16, append_loose. cbn [blob v_empty negb andb pay repeat].
  change (fixed_genus (descriptor2genus (fd g_u16 1))) with true. change (loose_units (descriptor2genus (fd g_u16 1))) with 0.
  unfold alloc_loose. cbn [Z.eqb]. unfold index_alloc. rewrite J. cbn [Z.gtb Z.compare]. replace (head_space s <? 1) with false by lia.
  cbn [bind void]. eexists. unfold write_fixed. cbn [set_ent with_idx idx]. rewrite fupd_same. cbn [egenus gid].
  change (is_inplaced_genus (egenus (mkE 0 (u16 (fd g_u16 1))))) with true. cbn iota. reflexivity.
Qed.
Lemma many_run n : forall s, jc s = 0 -> Z.of_nat n <= head_space s ->
  calm_runb odd_multi s (repeat one_u16 n) = true /\
  exists f outs, run asis s (repeat one_u16 n) = Some (outs, with_idx (with_cnt s (cnt s + n)%nat) f).
Proof.
  induction n as [|n IH]; intros s J H; cbn [repeat calm_runb run].
  - split; [reflexivity|]. exists (idx s), []. rewrite Nat.add_0_r. destruct s; reflexivity.
  - destruct (one_u16_step s J ltac:(lia)) as (f & E). rewrite E.
    assert (C : validb odd_multi s one_u16 = true /\ calm s one_u16 = true) by (split; reflexivity). destruct C as [-> ->]. cbn [andb].
    destruct (IH (with_idx (with_cnt s (S (cnt s))) f)) as (C & f' & outs & R); [exact J|unfold head_space in *; cbn [with_idx with_cnt pivot cnt]; lia|].
    split; [exact C|]. rewrite R. cbn [option_map fst snd]. exists f', (true :: outs). do 2 f_equal. cbn [with_idx with_cnt cnt].
    replace (S (cnt s) + n)%nat with (cnt s + S n)%nat by lia. reflexivity.
Qed.
Example C10_many_case : reached odd_multi many /\ schema_of many schema9 /\ cnt many = Z.to_nat 8191 /\ nslots many = 1%nat /\ tail many - head many + 1 = 8193.
Proof.
  destruct (many_run (Z.to_nat 8191) (new_tuple1 8200 8191) eq_refl ltac:(vm_compute; discriminate)) as (C & f & outs & R).
  split; [apply reach1; [reflexivity|exact C]|]. unfold many, final, many_history. rewrite R.
  split; [split; [discriminate|split; reflexivity]|]. split; [reflexivity|]. split; [reflexivity|].
  unfold head. cbn [with_idx with_cnt tail pivot cnt]. rewrite Nat2Z.inj_add, Z2Nat.id by discriminate. reflexivity.
Qed.

(** ** C09. Serialise / parse round trip *)
(** what a reader of bytes finds at a position of the index: type and number, and the units of the
    value *)
Definition ro_loose (m : bmem) (ptr : Z) (k : nat) : option (Z * list Z) :=
  let pivot := ro_pivot m ptr in
  let a := pivot - 4 * (Z.of_nat k + 1) in
  let d := half m (a + 2) in
  let g := descriptor2genus d in
  let p := a + 4 * half m a in
  let n := if g >? g_property then loose_units g else if half m a =? 0 then 0 else brutto_at m g p in
  if (Z.of_nat k <? ro_index m ptr) && negb (g =? g_hole)
  then Some (d, if is_inplaced_genus g then [half m a] else map (fun i => word_at m (p + 4 * Z.of_nat i)) (seq 0 (Z.to_nat n)))
  else None.
(** and in a variable-length preplaced field of type [g] at the given byte offset *)
Definition ro_slot (m : bmem) (ptr g off : Z) : list Z :=
  let a := ro_pivot m ptr + off in
  let p := a + 4 * half m a in
  let n := if half m a =? 0 then 0 else brutto_at m g p in
  map (fun i => word_at m (p + 4 * Z.of_nat i)) (seq 0 (Z.to_nat n)).
Lemma words_of A s a n : TInv s -> 0 < n -> base s <= a -> a + n <= tail s ->
  map (fun i => word_at (asis_mem A s) (A + 4 * a + 4 * Z.of_nat i)) (seq 0 (Z.to_nat n)) = map u32 (read_units s a n).
Proof.
  intros T Hn H1 H2. pose proof (seen_cfg s T) as C. unfold read_units. rewrite map_map. apply map_ext_in. intros i I. apply in_seq in I.
  replace (A + 4 * a + 4 * Z.of_nat i) with (A + 4 * (a + Z.of_nat i)) by lia. unfold asis_mem. rewrite word_at_bytes.
  unfold base in *. rewrite (asis_agrees A s) by (unfold head; lia). rewrite word_data by (unfold base; lia). reflexivity.
Qed.
Lemma readers_see s A : TInv s -> distinct_slots s -> Z.of_nat (cnt s) <= max_fields ->
  (forall k, ro_loose (asis_mem A s) (asis_ptr A s) k = as_u32 (field s (RL k))) /\
  (forall j, (j < nslots s)%nat -> ro_slot (asis_mem A s) (asis_ptr A s) (stype s j) (4 * soff s j) = map u32 (value s (RP j))).
Proof.
  intros T DS Few. pose proof (v_acc _ _ (t_inv _ T)) as acc. pose proof (seen_cfg s T) as C.
  assert (Big : tail s - head s + 1 <= 65535) by (unfold head, base in *; lia).
  split.
  - intros k. unfold ro_loose. rewrite (asis_pivot A s T Few Big), (asis_index A s T Few Big). unfold field. cbn [liveb].
    destruct (Z.of_nat k <? Z.of_nat (cnt s)) eqn:Ek.
    2:{ replace (Nat.ltb k (cnt s)) with false by (symmetry; apply Nat.ltb_ge; lia). reflexivity. }
    assert (Hk : (k < cnt s)%nat) by lia. replace (Nat.ltb k (cnt s)) with true by (symmetry; apply Nat.ltb_lt; lia). cbn [andb].
    pose proof (seen_entry A s (asis_word s) T (asis_agrees A s) k Hk) as [E1 E2]. unfold e_rel, e_desc, entry_addr in E1, E2. unfold asis_mem in *. rewrite E1, E2.
    change (descriptor2genus (gid (idx s k)) =? g_hole) with (is_hole (idx s k)). destruct (is_hole (idx s k)) eqn:EH; [reflexivity|]. cbn [negb as_u32 rdesc].
    fold (egenus (idx s k)). do 2 f_equal. unfold value. cbn [rgenus rrel]. destruct (is_inplaced_genus (egenus (idx s k))) eqn:EI.
    + cbn [map]. f_equal. destruct (i_ent _ _ _ _ _ _ acc k Hk) as (R1 & _). unfold u32. rewrite Z.mod_small; [reflexivity|]. change (2 ^ 32) with 4294967296. lia.
    + assert (EA : A + 4 * pivot s - 4 * (Z.of_nat k + 1) + 4 * rel (idx s k) = A + 4 * raddr s (RL k)) by (unfold raddr; cbn [rown rrel]; unfold own; lia).
      rewrite EA.
      assert (EN : (if egenus (idx s k) >? g_property then loose_units (egenus (idx s k)) else if rel (idx s k) =? 0 then 0 else brutto_at (bytes_of A (asis_word s)) (egenus (idx s k)) (A + 4 * raddr s (RL k))) = plen s (RL k)).
      { pose proof (seen_units A s (asis_word s) T (asis_agrees A s) k Hk) as U. unfold e_units in U. rewrite (seen_genus A s (asis_word s) T (asis_agrees A s) k Hk), (seen_payload A s (asis_word s) T (asis_agrees A s) k Hk), EI in U.
        unfold len in U. rewrite EH in U. change (egenus (idx s k) =? g_hole) with (is_hole (idx s k)) in U. rewrite EH in U.
        unfold e_rel, entry_addr in U. rewrite E1 in U. exact U. }
      rewrite EN. pose proof (plen_nonneg s (RL k)). destruct (Z.eq_dec (plen s (RL k)) 0) as [Z0|NZ]; [rewrite Z0; reflexivity|].
      assert (L : live s (RL k)) by (split; assumption). assert (Pos : 0 < plen s (RL k)) by lia. destruct (live_bounds s (plen s) acc (RL k) L Pos).
      apply (words_of A s); assumption.
  - intros j Hj. unfold ro_slot. rewrite (asis_pivot A s T Few Big).
    pose proof (seen_slot A s (asis_word s) T DS (asis_agrees A s) j Hj) as E1. unfold t_rel in E1. cbn [snd] in E1. unfold asis_mem in *. rewrite E1.
    pose proof (seen_slot_units A s (asis_word s) T DS (asis_agrees A s) j Hj) as U. unfold t_units, t_payload, t_rel in U. cbn [fst snd] in U. rewrite E1 in U.
    pose proof (t_slot _ T j Hj). replace (stype s j >? g_property) with false in U by (change g_property with 3; lia). rewrite U.
    unfold value. pose proof (plen_nonneg s (RP j)). destruct (Z.eq_dec (plen s (RP j)) 0) as [Z0|NZ]; [rewrite Z0; reflexivity|].
    assert (Pos : 0 < plen s (RP j)) by lia. destruct (live_bounds s (plen s) acc (RP j) Hj Pos).
    replace (A + 4 * pivot s + 4 * soff s j + 4 * pre s j) with (A + 4 * raddr s (RP j)) by (unfold raddr; cbn [rown rrel]; lia).
    apply (words_of A s); assumption.
Qed.
(** Readers of the serialised form see exactly the fields of the tuple, position by position. *)
Theorem C09_readers_see_the_fields_partial : forall multi s A, reached multi s -> distinct_slots s ->
  Z.of_nat (cnt s) <= max_fields ->
  (forall k, ro_loose (asis_mem A s) (asis_ptr A s) k = as_u32 (field s (RL k))) /\
  (forall j, (j < nslots s)%nat -> ro_slot (asis_mem A s) (asis_ptr A s) (stype s j) (4 * soff s j) = map u32 (value s (RP j))).
Proof. intros multi s A R DS Few. destruct (reached_inv multi s R) as [T _]. apply readers_see; assumption. Qed.
Example C09_readers_case : ro_loose (asis_mem 4096 before9) (asis_ptr 4096 before9) 0 = Some (fd g_varbin 2, [5; 1; 1; 1; 1]) /\
  ro_loose (asis_mem 4096 before9) (asis_ptr 4096 before9) 2 = Some (fd g_i64 6, [3; 3]) /\
  ro_loose (asis_mem 4096 before9) (asis_ptr 4096 before9) 1 = None /\
  ro_loose (asis_mem 4096 before9) (asis_ptr 4096 before9) 3 = Some (fd g_u16 1, [8]) /\
  ro_loose (asis_mem 4096 before9) (asis_ptr 4096 before9) 4 = None /\
  ro_slot (asis_mem 4096 before9) (asis_ptr 4096 before9) g_varbin 0 = [4; 6; 6; 6].
Proof. vm_compute. repeat split. Qed.

(** A copy has the same fields in the same positions, the same units of preplaced data, and is
    again a proper tuple - if the reserve asked for does not push the end of the payload over the
    size limit. *)
Theorem C09_copy_partial : forall multi s A l size more payload d s', reached multi s -> distinct_slots s -> layout_of s l ->
  Z.of_nat (cnt s) <= max_fields -> 0 <= more -> 44 <= size -> create_copy A s size more payload l d = Some s' ->
  Z.min max_fields (Z.of_nat (cnt s) + more) + (tail s - pivot s) <= 65534 ->
  TInv s' /\ (forall r, field s' r = as_u32 (field s r)) /\
  (forall x, head s <= x < tail s -> word s' (x + (pivot s' - pivot s)) = u32 (word s x)) /\
  jc s' = jc s /\ jv s' = jv s /\ pivot s' - Z.of_nat (cnt s') = Z.min (max_fields - Z.of_nat (cnt s)) more.
Proof.
  intros multi s A l size more payload d s' R DS LO Few Hm Hs H Fit. destruct (reached_inv multi s R) as [T _]. pose proof (seen_cfg s T) as C.
  assert (Big : tail s - head s + 1 <= 65535) by (unfold head, base in *; lia).
  unfold create_copy in H. destruct (estimate_ro _ _ _ _ _) as [need|]; [|discriminate]. destruct (size <? need); [discriminate|].
  destruct (from_ro_moved A s l T DS Few Big LO (jc s, jv s) size more d s' Hm Hs eq_refl eq_refl H) as (MV & PV & E1 & E2 & W).
  split. { apply (moved_inv s s' _ MV T); [rewrite PV; lia|]. split; [apply E2; lia|exact E1]. }
  split; [intros r; apply (mv_field s s' _ MV T)|]. split; [exact W|].
  rewrite (m_jc _ _ _ MV), (m_jv _ _ _ MV), (m_cnt _ _ _ MV). repeat split. lia.
Qed.
(** the copy is made whenever the sizes allow *)
Theorem C09_copy_made : forall multi s A l size more payload d, reached multi s -> layout_of s l ->
  Z.of_nat (cnt s) <= max_fields -> 0 <= more <= max_fields -> 0 <= payload <= max_tuple_bytes_netto ->
  4 * (tail s - pivot s) + payload <= max_tuple_bytes_netto - l_bytes l ->
  44 + 4 * (Z.of_nat (cnt s) + more) + 4 * (tail s - pivot s) + payload + 3 <= size <= 2 * max_tuple_bytes_netto ->
  exists s', create_copy A s size more payload l d = Some s'.
Proof.
  intros multi s A l size more payload d R LO Few Hm Hp Hd Hs. destruct (reached_inv multi s R) as [T _]. pose proof (seen_cfg s T) as C.
  assert (Big : tail s - head s + 1 <= 65535) by (unfold head, base in *; lia). destruct LO as (L1 & _). unfold base in *.
  unfold create_copy, estimate_ro, from_ro. rewrite (asis_index A s T Few Big), (asis_payload A s T Few Big).
  change max_fields with 8191 in *. change max_tuple_bytes_netto with 262136 in *.
  replace (more >? 8191) with false by lia. replace (payload >? 262136) with false by lia. unfold estimate.
  change max_fields with 8191. change max_tuple_bytes_netto with 262136.
  replace (l_bytes l >? 262136) with false by lia.
  replace (Z.min 262136 (4 * (tail s - pivot s) + payload) >? 262136 - l_bytes l) with false by lia.
  replace (Z.min 8191 (Z.of_nat (cnt s) + more) >? 8191) with false by lia. cbn [orb].
  replace (size <? pure_tuple_size + Z.min 8191 (Z.of_nat (cnt s) + more) * 4 + ceil4 (Z.min 262136 (4 * (tail s - pivot s) + payload))) with false by (unfold pure_tuple_size, ceil4; lia).
  replace (size >? 2 * 262136) with false by lia.
  replace (4 * (tail s - pivot s) >? 262136 - l_bytes l) with false by lia. cbn [orb].
  replace (size <? pure_tuple_size + Z.min 8191 (Z.of_nat (cnt s) + more) * 4 + ceil4 (4 * (tail s - pivot s))) with false by (unfold pure_tuple_size, ceil4; lia).
  eexists. reflexivity.
Qed.
Definition layout9 : layout := mkL 4 1 (fun _ => 0) (fun _ => g_varbin).
Definition copy9 : option st := create_copy 4096 before9 400 3 20 layout9 zeros.
Example C09_copy_case : distinct_slots before9 /\ layout_of before9 layout9 /\
  match copy9 with
  | Some s' => pivot s' = 7 /\ pivot before9 = 6 /\ end_ s' = 89 /\ field s' (RL 0) = Some (fd g_varbin 2, [5; 1; 1; 1; 1]) /\ jc s' = 1 /\ jv s' = 2
  | None => False
  end.
Proof.
  assert (N : nslots before9 = 1%nat) by (vm_compute; reflexivity). split; [intros i j Hi Hj _; lia|]. split.
  - split; [cbn; lia|]. split; [vm_compute; reflexivity|]. split; [rewrite N; reflexivity|]. intros j Hj. rewrite N in Hj.
    assert (j = 0)%nat by lia. subst j. split; reflexivity.
  - vm_compute. repeat split.
Qed.
(** Building from bytes goes through the validator and takes the holes it reports, so it gives the
    same tuple. *)
Theorem C09_from_buffer_partial : forall multi s A schema l size more payload d s', reached multi s -> distinct_slots s ->
  schema_of s schema -> layout_of s l -> Z.of_nat (cnt s) + Z.of_nat (nslots s) <= max_fields ->
  tail s - head s + 1 <= 65534 -> asis_ptr A s <> 0 -> 0 <= more -> 44 <= size ->
  create_from_buffer (asis_mem A s) (asis_ptr A s) (asis_bytes s) size more payload schema l d = Some s' ->
  Z.min max_fields (Z.of_nat (cnt s) + more) + (tail s - pivot s) <= 65534 ->
  TInv s' /\ (forall r, field s' r = as_u32 (field s r)) /\ jc s' = jc s /\ jv s' = jv s.
Proof.
  intros multi s A schema l size more payload d s' R DS SO LO Few Big NN Hm Hs H Fit. destruct (reached_inv multi s R) as [T _].
  unfold create_from_buffer in H. rewrite (asis_accepted A s schema T DS SO Few Big NN) in H.
  assert (Few' : Z.of_nat (cnt s) <= max_fields) by lia. assert (Big' : tail s - head s + 1 <= 65535) by lia.
  destruct (estimate_ro _ _ _ _ _) as [need|]; [|discriminate]. destruct (size <? need); [discriminate|].
  destruct (from_ro_moved A s l T DS Few' Big' LO (jc s, jv s) size more d s' Hm Hs eq_refl eq_refl H) as (MV & PV & E1 & E2 & _).
  split. { apply (moved_inv s s' _ MV T); [rewrite PV; lia|]. split; [apply E2; lia|exact E1]. }
  split; [intros r; apply (mv_field s s' _ MV T)|]. rewrite (m_jc _ _ _ MV), (m_jv _ _ _ MV). split; reflexivity.
Qed.
(** With a large reserve the constructor accepts the buffer and yet puts the end of the payload
    behind the end of the buffer it records (rw.cxx:714-727). *)
Definition heavy : st := final (new_tuple 65534 1) [OSet (fd g_varbin 2) true (vbin (Z.to_nat 60000) 7)].
Theorem C09_reserve_refuted : exists s size more, reached odd_multi s /\ cnt s = 1%nat /\
  more <= max_fields /\ size <= 2 * max_tuple_bytes_netto /\
  match create_copy 4096 s size more 0 no_layout zeros with
  | Some s' => end_ s' < tail s' /\ tail_space s' < 0
  | None => False
  end.
Proof.
  exists heavy, 300000, 8190. split; [unfold heavy; now_reach|].
  vm_compute. repeat split; discriminate.
Qed.
(** A tuple whose preplaced part is more than half of the limit can be created but never copied:
    the size check counts the preplaced part twice (rw.h:1150-1169 called from 1171-1196 and
    rw.cxx:709-713). *)
Theorem C09_preplaced_refuted : forall s A l size more payload d, TInv s -> Z.of_nat (cnt s) <= max_fields -> layout_of s l ->
  max_tuple_bytes_netto < 2 * l_bytes l -> 0 <= payload -> create_copy A s size more payload l d = None.
Proof.
  intros s A l size more payload d T Few (L1 & L2 & _) Hl Hp. pose proof (seen_cfg s T) as C.
  assert (Big : tail s - head s + 1 <= 65535) by (unfold head, base in *; lia).
  unfold create_copy, estimate_ro. destruct (more >? max_fields); [reflexivity|]. destruct (payload >? max_tuple_bytes_netto); [reflexivity|].
  rewrite (asis_index A s T Few Big), (asis_payload A s T Few Big). unfold l_units in L2. rewrite bytes2units_div in L2. unfold base in *.
  unfold estimate. change max_tuple_bytes_netto with 262136 in *. destruct (l_bytes l >? 262136) eqn:E; [reflexivity|].
  replace (Z.min 262136 (4 * (tail s - pivot s) + payload) >? 262136 - l_bytes l) with true by lia. reflexivity.
Qed.
Example C09_preplaced_case : estimate 10 4000 160000 false <> None /\
  reached odd_multi (fresh 50000 10 40000 0 no_slots no_slots zeros) /\
  layout_of (fresh 50000 10 40000 0 no_slots no_slots zeros) (mkL 160000 0 no_slots no_slots) /\ max_tuple_bytes_netto < 2 * 160000.
Proof.
  split; [vm_compute; discriminate|]. split.
  - apply (reached_intro odd_multi 50000 10 40000 0 no_slots no_slots zeros [] [] _); [|reflexivity|reflexivity].
    constructor; unfold no_slots; intros; lia.
  - split; [|vm_compute; reflexivity]. split; [cbn; lia|]. split; [vm_compute; reflexivity|]. split; [reflexivity|]. intros j Hj. cbn in Hj. lia.
Qed.

(** ** C30. Growing or cloning a tuple keeps its bookkeeping *)
(** On a copy that got the counters, every further calm history reads the last write, starting from
    the fields of the original. *)
Definition u32_value (v : option (list Z)) : option (list Z) := option_map (map u32) v.
Section Reads.
  Variables (s s' : st) (d : Z).
  Hypothesis M : moved s s' d.
  Hypothesis T : TInv s.
  Lemma mv_value r : live s r -> value s' r = map u32 (value s r).
  Proof.
    intros L. pose proof (mv_field s s' d M T r) as F. unfold field in F.
    rewrite (proj2 (liveb_iff s r) L), (proj2 (liveb_iff s' r) (proj2 (mv_live s s' d M r) L)) in F. cbn [as_u32] in F. congruence.
  Qed.
  Lemma mv_collect desc : collect s' desc = collect s desc.
  Proof.
    unfold collect. rewrite (m_cnt _ _ _ M). assert (G : forall n, (n <= cnt s)%nat -> collect_from s' desc n = collect_from s desc n).
    { induction n as [|n IH]; intros Hn; [reflexivity|]. cbn [collect_from]. rewrite (m_idx _ _ _ M) by lia. rewrite IH by lia. reflexivity. }
    apply G. lia.
  Qed.
End Reads.
Lemma collect_live s desc k : real_desc desc -> In k (collect s desc) -> live s (RL k).
Proof.
  intros Hd. unfold collect. assert (G : forall n, (n <= cnt s)%nat -> In k (collect_from s desc n) -> live s (RL k)).
  { induction n as [|n IH]; intros Hn I; [destruct I|]. cbn [collect_from] in I. destruct (gid (idx s n) =? desc) eqn:E; [destruct I as [<-|I]|].
    - split; [lia|]. apply (real_gid _ desc Hd). lia.
    - apply IH; [lia|assumption].
    - apply IH; [lia|assumption]. }
  apply G. lia.
Qed.
Lemma mv_view s s' d (M : moved s s' d) (T : TInv s) desc : real_desc desc -> view s' desc = map (map u32) (view s desc).
Proof.
  intros Hd. unfold view. rewrite (mv_collect s s' d M), map_map. apply map_ext_in. intros k Hk.
  apply (mv_value s s' d M T). apply (collect_live s desc k Hd Hk).
Qed.
Lemma mv_get s s' d (M : moved s s' d) (T : TInv s) (T' : TInv s') desc : real_desc desc -> get_loose s' desc = u32_value (get_loose s desc).
Proof.
  intros Hd. rewrite !get_loose_view by assumption. rewrite (mv_view s s' d M T) by assumption.
  destruct (view s desc) as [|p q]; [reflexivity|]. cbn [map obs1]. unfold obs. destruct (fixed_genus _); [reflexivity|]. destruct p; reflexivity.
Qed.
Lemma mv_get_slot s s' d (M : moved s s' d) (T : TInv s) j : (j < nslots s)%nat -> get_slot s' j = u32_value (get_slot s j).
Proof.
  intros Hj. unfold get_slot. rewrite (m_pre _ _ _ M) by assumption. destruct (pre s j =? 0); [reflexivity|].
  rewrite (mv_value s s' d M T) by exact Hj. reflexivity.
Qed.
Theorem C30_copy_behaves_partial : forall multi s A l size more payload d s' ops, reached multi s -> distinct_slots s -> layout_of s l ->
  Z.of_nat (cnt s) <= max_fields -> 0 <= more -> 44 <= size -> create_copy A s size more payload l d = Some s' ->
  Z.min max_fields (Z.of_nat (cnt s) + more) + (tail s - pivot s) <= 65534 ->
  calm_run multi s' ops ->
  sumn (cnt s') (hcount s') = jc s' /\ sumn (cnt s') (hvol s') = jv s' /\
  exists outs s2, run asis s' ops = Some (outs, s2) /\ TInv s2 /\
    (forall desc, real_desc desc -> multi desc = false ->
       get_loose s2 desc = last_write (KL desc) (u32_value (get_loose s desc)) (combine ops outs)) /\
    (forall j, (j < nslots s)%nat -> get_slot s2 j = last_write (KP j) (u32_value (get_slot s j)) (combine ops outs)).
Proof.
  intros multi s A l size more payload d s' ops R DS LO Few Hm Hs H Fit Calm. destruct (reached_inv multi s R) as [T U]. pose proof (seen_cfg s T) as C.
  assert (Big : tail s - head s + 1 <= 65535) by (unfold head, base in *; lia).
  destruct (C09_copy_partial multi s A l size more payload d s' R DS LO Few Hm Hs H Fit) as (T' & _).
  unfold create_copy in H. destruct (estimate_ro _ _ _ _ _) as [need|]; [|discriminate]. destruct (size <? need); [discriminate|].
  destruct (from_ro_moved A s l T DS Few Big LO (jc s, jv s) size more d s' Hm Hs eq_refl eq_refl H) as (MV & _).
  pose proof (v_acc _ _ (t_inv _ T')) as acc'.
  split; [rewrite (i_jc _ _ _ _ _ _ acc'); lia|]. split; [rewrite (i_jv _ _ _ _ _ _ acc'); lia|].
  assert (U' : uniq multi s') by (intros desc Hd Hu; rewrite (mv_view s s' _ MV T desc Hd), map_length; apply U; assumption).
  destruct (history multi ops s' T' U' Calm) as (outs & s2 & E & _ & T2 & _ & _ & G & _).
  exists outs, s2. split; [exact E|]. split; [exact T2|]. split.
  - intros desc Hd Hu. rewrite <- (mv_get s s' _ MV T T' desc Hd). exact (G (KL desc) (conj Hd Hu)).
  - intros j Hj. rewrite <- (mv_get_slot s s' _ MV T j Hj). apply (G (KP j)). cbn [single_key]. rewrite (m_nslots _ _ _ MV). exact Hj.
Qed.
Example C30_copy_case : match copy9 with
  | Some s' => calm_runb odd_multi s' [OSet (fd g_u64 10) true (blob 2 4); ORemove (fd g_i64 6); OSlot 0 true (vbin 8 1)] = true /\
      jc (final s' [OSet (fd g_u64 10) true (blob 2 4)]) = 0
  | None => False
  end.
Proof. vm_compute. split; reflexivity. Qed.
(** fptu_fetch says that there are no holes whatever the image has, so the copy's counters are
    wrong... *)
Theorem C30_fetch_refuted : forall multi s A size more d s', reached multi s -> pp s = 0 -> Z.of_nat (cnt s) <= max_fields ->
  0 <= more -> 44 <= size -> jc s <> 0 ->
  fetch (asis_mem A s) (asis_ptr A s) (asis_bytes s) size more d = Some s' -> jc s' = 0 /\ sumn (cnt s') (hcount s') = jc s.
Proof.
  intros multi s A size more d s' R P0 Few Hm Hs J H. destruct (reached_inv multi s R) as [T _]. pose proof (seen_cfg s T) as C.
  pose proof (v_acc _ _ (t_inv _ T)) as acc. assert (Big : tail s - head s + 1 <= 65535) by (unfold head, base in *; lia).
  unfold fetch in H. destruct (snd (lite_checkup _ _ _)) as [u| |]; [|discriminate|discriminate].
  assert (H' : exists s1, from_ro (jc s, jv s) (asis_mem A s) (asis_ptr A s) size more no_layout d = Some s1 /\ idx s1 = idx s' /\ cnt s1 = cnt s' /\ jc s' = 0).
  { unfold from_ro in *. destruct (more >? max_fields); [discriminate|]. destruct (size >? _); [discriminate|].
    destruct (estimate _ _ _ _) as [need|]; [|discriminate]. destruct (size <? need); [discriminate|].
    assert (Q : forall a b : st, Some a = Some b -> b = a) by (intros a b Q; congruence). apply Q in H. rewrite H. clear.
    eexists. split; [reflexivity|]. cbn [idx cnt jc]. repeat split. }
  destruct H' as (s1 & E & E1 & E2 & E3). split; [exact E3|].
  assert (NS : nslots s = 0%nat). { destruct (nslots s) as [|n] eqn:En; [reflexivity|]. pose proof (c_soff _ (i_cfg _ _ _ _ _ _ acc) 0%nat ltac:(lia)). lia. }
  assert (LO : layout_of s no_layout). { split; [cbn; lia|]. split; [rewrite P0; reflexivity|]. split; [rewrite NS; reflexivity|]. intros j Hj. lia. }
  assert (DS : distinct_slots s) by (intros i j Hi; lia).
  destruct (from_ro_moved A s no_layout T DS Few Big LO (jc s, jv s) size more d s1 Hm Hs eq_refl eq_refl E) as (MV & _).
  rewrite <- E2, (m_cnt _ _ _ MV), (sumn_ext _ _ (hcount s)).
  - rewrite (i_jc _ _ _ _ _ _ acc). lia.
  - intros k Hk. unfold hcount. rewrite <- E1, (m_idx _ _ _ MV) by assumption. reflexivity.
Qed.
(** ...and the space of the holes is lost: an insert that the original takes is refused by the copy
    in a buffer of the same size. *)
Definition holed : st := final (new_tuple 12 4) [OSet (fd g_bin128 2) true (blob 4 1); OSet (fd g_bin128 4) true (blob 4 2); ORemove (fd g_bin128 2)].
Theorem C30_fetch_insert_refuted : exists s o, reached odd_multi s /\ valid odd_multi s o /\ calm s o = true /\
  (exists s1, run asis s [o] = Some ([true], s1)) /\
  match fetch (asis_mem 4096 s) (asis_ptr 4096 s) (asis_bytes s) (44 + 4 * end_ s) 2 zeros with
  | Some s' => end_ s' = end_ s /\ pivot s' = pivot s /\ jc s = 1 /\ jc s' = 0 /\ outcome s' [o] = Some [false]
  | None => False
  end.
Proof.
  exists holed, (OSet (fd g_bin128 6) true (blob 4 3)). split; [unfold holed; now_reach|].
  split; [apply validb_ok; vm_compute; reflexivity|]. split; [vm_compute; reflexivity|].
  split; [eexists; apply run_final; vm_compute; reflexivity|]. vm_compute. repeat split.
Qed.

(** a tuple without holes is fetched as it is *)
Theorem C30_fetch_without_holes_partial : forall multi s A size more d s', reached multi s -> pp s = 0 -> Z.of_nat (cnt s) <= max_fields ->
  0 <= more -> 44 <= size -> (forall k, (k < cnt s)%nat -> is_hole (idx s k) = false) ->
  fetch (asis_mem A s) (asis_ptr A s) (asis_bytes s) size more d = Some s' ->
  Z.min max_fields (Z.of_nat (cnt s) + more) + (tail s - pivot s) <= 65534 ->
  TInv s' /\ jc s' = 0 /\ jv s' = 0 /\ forall r, field s' r = as_u32 (field s r).
Proof.
  intros multi s A size more d s' R P0 Few Hm Hs NH H Fit. destruct (reached_inv multi s R) as [T _]. pose proof (seen_cfg s T) as C.
  pose proof (v_acc _ _ (t_inv _ T)) as acc. assert (Big : tail s - head s + 1 <= 65535) by (unfold head, base in *; lia).
  assert (J1 : jc s = 0).
  { rewrite <- (Z.add_0_r (jc s)), <- (i_jc _ _ _ _ _ _ acc). apply sumn_zero. intros k Hk. unfold hcount. rewrite (NH k Hk). reflexivity. }
  assert (J2 : jv s = 0).
  { rewrite <- (Z.add_0_r (jv s)), <- (i_jv _ _ _ _ _ _ acc). apply sumn_zero. intros k Hk. unfold hvol. rewrite (NH k Hk). reflexivity. }
  unfold fetch in H. destruct (snd (lite_checkup _ _ _)) as [u| |]; [|discriminate|discriminate].
  assert (NS : nslots s = 0%nat). { destruct (nslots s) as [|n] eqn:En; [reflexivity|]. pose proof (c_soff _ (i_cfg _ _ _ _ _ _ acc) 0%nat ltac:(lia)). lia. }
  assert (LO : layout_of s no_layout). { split; [cbn; lia|]. split; [rewrite P0; reflexivity|]. split; [rewrite NS; reflexivity|]. intros j Hj. lia. }
  assert (DS : distinct_slots s) by (intros i j Hi; lia).
  destruct (from_ro_moved A s no_layout T DS Few Big LO (0, 0) size more d s' Hm Hs (eq_sym J1) (eq_sym J2) H) as (MV & PV & E1 & E2 & _).
  split. { apply (moved_inv s s' _ MV T); [rewrite PV; lia|]. split; [apply E2; lia|exact E1]. }
  rewrite (m_jc _ _ _ MV), (m_jv _ _ _ MV), J1, J2. split; [reflexivity|]. split; [reflexivity|]. intros r. apply (mv_field s s' _ MV T).
Qed.
Definition unholed : st := final (new_tuple 12 4) [OSet (fd g_bin128 2) true (blob 4 1); OSet (fd g_u64 4) true (blob 2 2)].
Example C30_fetch_case : reached odd_multi unholed /\ pp unholed = 0 /\ cnt unholed = 2%nat /\ (forall k, (k < cnt unholed)%nat -> is_hole (idx unholed k) = false) /\
  match fetch (asis_mem 4096 unholed) (asis_ptr 4096 unholed) (asis_bytes unholed) 200 3 zeros with Some s' => get_loose s' (fd g_u64 4) = Some [2; 2] | None => False end.
Proof.
  split; [unfold unholed; now_reach|]. split; [vm_compute; reflexivity|]. split; [vm_compute; reflexivity|]. split; [|vm_compute; reflexivity].
  intros k Hk. change (cnt unholed) with 2%nat in Hk. destruct k as [|[|k]]; [vm_compute; reflexivity..|lia].
Qed.

Print Assumptions C10_accepted_partial.
Print Assumptions C10_case.
Print Assumptions C10_refuted.
Print Assumptions C10_full_tuple_refuted.
Print Assumptions C10_full_case.
Print Assumptions C10_many_fields_refuted.
Print Assumptions C10_many_case.
Print Assumptions C09_readers_see_the_fields_partial.
Print Assumptions C09_readers_case.
Print Assumptions C09_copy_partial.
Print Assumptions C09_copy_made.
Print Assumptions C09_copy_case.
Print Assumptions C09_from_buffer_partial.
Print Assumptions C09_reserve_refuted.
Print Assumptions C09_preplaced_refuted.
Print Assumptions C09_preplaced_case.
Print Assumptions C30_copy_behaves_partial.
Print Assumptions C30_copy_case.
Print Assumptions C30_fetch_refuted.
Print Assumptions C30_fetch_insert_refuted.
Print Assumptions C30_fetch_without_holes_partial.

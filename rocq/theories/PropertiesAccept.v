(** * PropertiesAccept: C72, a modifiable tuple opened from bytes of unknown origin. *)
From Verif Require Import Base Tag TagProofs Codec Gear GearBase GearSearch GearProofs GearAlloc GearRealloc Tuple TupleProofs TupleSteps TupleView TupleOps TupleMore
  TupleHist TupleFacts PropertiesTuple Hippeus HippeusProofs Scan ScanProofs Audit AuditProofs Image ImageProofs PropertiesAudit PropertiesImage GearOpt Growth GrowthProofs AcceptProofs.
From Coq Require Import ZifyBool ZifyNat Permutation.
Ltac Zify.zify_post_hook ::= Z.div_mod_to_equations.

(** ** C72 *)
(** What the validator does not ask for, and the writer relies on: values that are there have some
    units, the payload belongs to somebody, holes touch neither each other nor the end. *)
Record proper_image (m : bmem) (ptr : Z) (schema : option sch) : Prop := {
  pi_values : no_empty_values m ptr schema;
  pi_owner : some_owner m ptr schema;
  pi_apart : gaps_apart m ptr;
  pi_inside : gaps_inside m ptr
}.
(** what a reader of the bytes finds under a descriptor, latest first *)
Fixpoint ro_view_from (m : bmem) (ptr desc : Z) (n : nat) : list (list Z) :=
  match n with
  | O => []
  | S k => match ro_loose m ptr k with
           | Some (x, v) => if x =? desc then v :: ro_view_from m ptr desc k else ro_view_from m ptr desc k
           | None => ro_view_from m ptr desc k
           end
  end.
Definition ro_view (m : bmem) (ptr desc : Z) : list (list Z) := ro_view_from m ptr desc (Z.to_nat (ro_index m ptr)).

Lemma created_from m ptr bytes size more payload schema l d s : bytes_mem m -> 0 <= more -> 0 <= payload ->
  create_from_buffer m ptr bytes size more payload schema l d = Some s ->
  exists info, snd (ro_audit m ptr bytes schema) = Good info /\ from_ro info m ptr size more l d = Some s /\ 44 <= size.
Proof.
  intros Hm Hmore Hp H. unfold create_from_buffer in H. destruct (snd (ro_audit m ptr bytes schema)) as [info| |] eqn:E; try discriminate.
  exists info. split; [reflexivity|]. destruct (estimate_ro m ptr more payload (l_bytes l)) as [need|] eqn:N; [|discriminate].
  destruct (size <? need) eqn:S1; [discriminate|]. split; [exact H|].
  unfold ro_audit in E. apply bindc_good in E as (u & L & _). destruct u. destruct (lite_checkup_good _ _ _ L) as (L1 & L2 & L3 & L4 & L5 & L6).
  pose proof (ro_index_range m ptr Hm) as IR.
  unfold estimate_ro in N. destruct (more >? max_fields); [discriminate|]. destruct (payload >? max_tuple_bytes_netto); [discriminate|].
  unfold estimate in N. destruct (l_bytes l >? max_tuple_bytes_netto); [discriminate|]. destruct (_ || _); [discriminate|].
  assert (Q : forall a b : Z, Some a = Some b -> b = a) by (intros a b Q; congruence). apply Q in N. clear Q H. subst need.
  unfold pure_tuple_size, ceil4, ro_payload_units in S1. unfold ro_pivot, ro_end in L6. change max_fields with 8191 in *. change max_tuple_bytes_netto with 262136 in *. lia.
Qed.

(** The bytes, their order and the memory around them are arbitrary; the validator accepted them and
    they are put together properly: the tuple satisfies everything the editing operations rely on,
    and has just the fields a reader of the bytes sees. *)
Theorem C72_opened_partial : forall m ptr bytes size more payload schema l d s, bytes_mem m -> 0 <= more -> 0 <= payload -> layout_for schema l ->
  create_from_buffer m ptr bytes size more payload schema l d = Some s -> proper_image m ptr schema ->
  Z.min max_fields (ro_index m ptr + more) + ro_payload_units m ptr <= 65534 ->
  TInv s /\ (forall k, field s (RL k) = ro_loose m ptr k) /\ nslots s = l_n l /\
  (forall j, (j < nslots s)%nat -> value s (RP j) = ro_slot m ptr (l_type l j) (4 * l_off l j)) /\
  (forall desc, real_desc desc -> view s desc = ro_view m ptr desc) /\
  jc s = holes_upto m (ro_pivot m ptr) (Z.to_nat (ro_index m ptr)) /\ jv s = volume_upto m (ro_pivot m ptr) (Z.to_nat (ro_index m ptr)) /\
  head_space s = Z.min more (max_fields - ro_index m ptr) /\ 4 * tail s <= size - 44.
Proof.
  intros m ptr bytes size more payload schema l d s Hm Hmore Hp LF C PI Fit. destruct (created_from _ _ _ _ _ _ _ _ _ _ Hm Hmore Hp C) as (info & OK & H & Hsize).
  pose proof (acc_bounds m ptr bytes schema info Hm OK) as (B1 & B2 & B3 & B4).
  destruct (taken_parts m ptr info size more l d s H) as (T1 & T2 & T3 & T4 & T5 & T6 & T7).
  destruct PI as [NE SO GA GI].
  assert (PV : pivot s = Z.min 8191 (ro_index m ptr + more)).
  { apply (taken_sizes m ptr info size more l d s); try assumption; change max_fields with 8191; lia. }
  assert (Fit' : pivot s + ro_payload_units m ptr <= 65534) by (rewrite PV; change max_fields with 8191 in Fit; exact Fit).
  pose proof (acc_sizes m ptr bytes schema info size more l d s Hm Hsize OK H) as (Z1 & Z2 & Z3 & Z4).
  assert (T : TInv s) by (apply (accepted_inv m ptr bytes schema info size more l d s); assumption).
  assert (F : forall k, field s (RL k) = ro_loose m ptr k).
  { intros k. pose proof (acc_cnt m ptr bytes schema info size more l d s Hm OK H k) as CK. unfold ro_loose, field. cbn [liveb rdesc].
    destruct (Z.of_nat k <? ro_index m ptr) eqn:EK.
    2:{ replace (Nat.ltb k (cnt s)) with false by (symmetry; apply Nat.ltb_ge; destruct (Nat.le_gt_cases (cnt s) k); [assumption|]; apply CK in H0; lia). reflexivity. }
    assert (Hk : (k < cnt s)%nat) by (apply CK; lia). replace (Nat.ltb k (cnt s)) with true by (symmetry; apply Nat.ltb_lt; exact Hk). cbn [andb].
    rewrite (acc_hole m ptr bytes schema info size more l d s Hm OK H k Hk). unfold e_hole, e_genus, e_desc, entry_addr.
    set (P := ro_pivot m ptr). set (D := half m (P - 4 * (Z.of_nat k + 1) + 2)).
    destruct (descriptor2genus D =? g_hole) eqn:EH; [reflexivity|]. cbn [negb].
    rewrite (proj2 (acc_entry m ptr bytes schema info size more l d s Hm OK H k Hk)). f_equal. f_equal.
    rewrite (acc_value m ptr bytes schema info size more l d s Hm Hsize LF OK H NE SO k Hk EH).
    unfold e_units, e_genus, e_desc, e_payload, e_rel, entry_addr. fold P. fold D. rewrite EH. destruct (is_inplaced_genus (descriptor2genus D)); reflexivity. }
  split; [exact T|]. split; [exact F|]. split; [exact T5|]. split.
  { intros j Hj. rewrite (acc_slot_value m ptr bytes schema info size more l d s Hm Hsize LF OK H NE SO j Hj).
    pose proof (acc_tok m ptr schema info size more l d s LF H j Hj) as (K1 & K2 & _). unfold ro_slot, t_units, t_payload, t_rel. cbn [fst snd] in *.
    replace (l_type l j >? g_property) with false by lia. reflexivity. }
  split.
  { intros desc Hd. rewrite view_vlist by assumption. unfold ro_view. rewrite <- T1. clear - F. induction (cnt s) as [|n IH]; [reflexivity|].
    cbn [vlist ro_view_from]. rewrite IH, F. unfold item. destruct (ro_loose m ptr n) as [[x v]|]; [|reflexivity]. destruct (x =? desc); reflexivity. }
  pose proof (acc_sound m ptr bytes schema info l Hm LF OK SO) as (A0 & _ & _ & A3 & A4 & _). rewrite A0 in T2, T3. cbn [fst snd] in T2, T3.
  assert (HH : 0 <= holes_upto m (ro_pivot m ptr) (Z.to_nat (ro_index m ptr))) by (apply sumn_nonneg; intros; unfold Z.b2z; destruct (e_hole _ _ _); lia).
  assert (VV : 0 <= volume_upto m (ro_pivot m ptr) (Z.to_nat (ro_index m ptr))).
  { apply sumn_nonneg. intros k _. pose proof (e_units_range m (ro_pivot m ptr) k Hm). destruct (e_hole m (ro_pivot m ptr) k); lia. }
  unfold u16 in T2, T3. change (2 ^ 16) with 65536 in *. rewrite Z.mod_small in T2, T3 by lia.
  split; [exact T2|]. split; [exact T3|]. split; [|lia]. unfold head_space. rewrite PV, T1. change max_fields with 8191. lia.
Qed.
(** Every history of calls on the opened tuple: reading gives the last value written, or what the
    bytes said; collections are kept as bags. *)
Theorem C72_edited_partial : forall multi m ptr bytes size more payload schema l d s ops, bytes_mem m -> 0 <= more -> 0 <= payload -> layout_for schema l ->
  create_from_buffer m ptr bytes size more payload schema l d = Some s -> proper_image m ptr schema ->
  Z.min max_fields (ro_index m ptr + more) + ro_payload_units m ptr <= 65534 ->
  (forall desc, real_desc desc -> multi desc = false -> (length (ro_view m ptr desc) <= 1)%nat) -> calm_run multi s ops ->
  exists outs s2, run asis s ops = Some (outs, s2) /\ length outs = length ops /\ TInv s2 /\
    (forall desc, real_desc desc -> multi desc = false ->
       get_loose s2 desc = last_write (KL desc) (obs1 desc (ro_view m ptr desc)) (combine ops outs)) /\
    (forall j, (j < l_n l)%nat -> get_slot s2 j =
       last_write (KP j) (if t_rel m (ro_pivot m ptr) (l_type l j, 4 * l_off l j) =? 0 then None else Some (ro_slot m ptr (l_type l j) (4 * l_off l j))) (combine ops outs)) /\
    (forall desc, real_desc desc -> multi desc = true -> Permutation (view s2 desc) (bag_run desc (ro_view m ptr desc) (TupleHist.trace asis s ops))).
Proof.
  intros multi m ptr bytes size more payload schema l d s ops Hm Hmore Hp LF C PI Fit Sg Calm.
  destruct (C72_opened_partial _ _ _ _ _ _ _ _ _ _ Hm Hmore Hp LF C PI Fit) as (T & F & N & SL & V & _).
  destruct (created_from _ _ _ _ _ _ _ _ _ _ Hm Hmore Hp C) as (info & OK & H & Hsize).
  assert (U : uniq multi s) by (intros desc Hd Hu; rewrite V by assumption; apply Sg; assumption).
  destruct (history multi ops s T U Calm) as (outs & s2 & E & L & T2 & _ & _ & G & B).
  exists outs, s2. split; [exact E|]. split; [exact L|]. split; [exact T2|]. split; [|split].
  - intros desc Hd Hu. rewrite <- V by assumption. rewrite <- (get_loose_view s desc T Hd). exact (G (KL desc) (conj Hd Hu)).
  - intros j Hj. rewrite <- N in Hj. pose proof (G (KP j) Hj) as Gj. cbn [get] in Gj. rewrite Gj. f_equal. unfold get_slot. rewrite SL by assumption.
    rewrite (taken_slot m ptr info size more l d s Hm H j). reflexivity.
  - intros desc Hd Hu. apply B; [assumption|assumption|]. rewrite V by assumption. apply Permutation_refl.
Qed.
(** The validator of modifiable tuples accepts it, at any address. *)
Theorem C72_audited_partial : forall m ptr bytes size more payload schema l d s A, bytes_mem m -> 0 <= more -> 0 <= payload -> layout_for schema l ->
  (forall i j, (i < l_n l)%nat -> (j < l_n l)%nat -> l_off l i = l_off l j -> i = j) ->
  create_from_buffer m ptr bytes size more payload schema l d = Some s -> proper_image m ptr schema ->
  Z.min max_fields (ro_index m ptr + more) + ro_payload_units m ptr <= 65534 ->
  snd (rw_audit (bytes_of A (word s)) A (head s) (pivot s) (tail s) (end_ s) (jc s) (jv s) schema) = Good tt.
Proof.
  intros m ptr bytes size more payload schema l d s A Hm Hmore Hp LF DO C PI Fit.
  destruct (C72_opened_partial _ _ _ _ _ _ _ _ _ _ Hm Hmore Hp LF C PI Fit) as (T & _).
  destruct (created_from _ _ _ _ _ _ _ _ _ _ Hm Hmore Hp C) as (info & OK & H & Hsize).
  destruct (taken_parts m ptr info size more l d s H) as (T1 & T2 & T3 & T4 & T5 & T6 & T7). destruct LF as (F1 & F2 & F3 & F4 & F5).
  apply rw_accepted; [exact T| | |].
  - intros i j Hi Hj E. rewrite T6 in E. rewrite T5 in *. apply DO; assumption.
  - destruct schema as [sc|]; cbn [schema_of pbytes_of toks_of] in *.
    + split; [exact F4|]. split; [rewrite T4; unfold l_units; rewrite F1; reflexivity|]. rewrite T5, T6, T7. exact F2.
    + rewrite T4. unfold l_units. rewrite F1. reflexivity.
  - unfold ro_audit in OK. apply bindc_good in OK as (u & L & O). destruct u. unfold audit_tuple in O.
    pose proof (ro_index_range m ptr Hm) as IR.
    match type of O with snd (if ?b then _ else _) = _ => destruct b eqn:E; [discriminate|] end.
    rewrite T1, T5. assert (Q : Z.of_nat (l_n l) = match schema with Some s0 => nstretchy s0 | None => 0 end).
    { destruct schema as [sc|]; cbn [toks_of] in F2.
      - unfold nstretchy. rewrite F2, map_length, seq_length. reflexivity.
      - cbn [filter] in F2. destruct (l_n l); [reflexivity|discriminate]. }
    lia.
Qed.
(** Images written by this library are proper. *)
Theorem C72_written_are_proper_partial : forall multi s A schema, reached multi s -> distinct_slots s -> schema_of s schema ->
  Z.of_nat (cnt s) <= max_fields -> proper_image (asis_mem A s) (asis_ptr A s) schema.
Proof.
  intros multi s A schema R DS SO Few. destruct (reached_inv multi s R) as [T _]. pose proof (v_acc _ _ (t_inv _ T)) as acc. pose proof (seen_cfg s T) as C.
  assert (Big : tail s - head s + 1 <= 65535) by (unfold head, base in *; lia).
  pose proof (asis_pivot A s T Few Big) as EP. pose proof (asis_index A s T Few Big) as EI. pose proof (asis_payload A s T Few Big) as EU.
  assert (TK : forall t, In t (toks_of schema) -> fst t <= g_property -> exists j, (j < nslots s)%nat /\ t = (stype s j, 4 * soff s j)).
  { intros t I G. destruct schema as [sc|]; cbn [schema_of toks_of] in *; [|destruct I]. destruct SO as (_ & _ & F).
    assert (J : In t (filter (fun t => negb (fst t >? g_property)) (stoks sc))) by (apply filter_In; split; [exact I|lia]).
    rewrite F in J. apply in_map_iff in J as (j & J1 & J2). apply in_seq in J2. exists j. split; [lia|congruence]. }
  assert (PB : bytes2units (pbytes_of schema) = pp s).
  { destruct schema as [sc|]; cbn [schema_of pbytes_of] in *; [exact (proj1 (proj2 SO))|rewrite SO; reflexivity]. }
  constructor.
  - split; rewrite EP.
    + intros k Hk G1 R1. rewrite EI in Hk. assert (Kc : (k < cnt s)%nat) by lia. unfold asis_mem in *.
      rewrite (seen_units A s _ T (asis_agrees A s)) by assumption. rewrite (seen_genus A s _ T (asis_agrees A s)) in G1 by assumption.
      rewrite (proj1 (seen_entry A s _ T (asis_agrees A s) k Kc)) in R1. unfold len. destruct (is_hole (idx s k)) eqn:EH.
      { change (is_hole (idx s k)) with (egenus (idx s k) =? g_hole) in EH. change g_property with 3 in G1. change g_hole with 31 in EH. lia. }
      pose proof (t_pos _ T (RL k) (conj Kc EH)) as TP. cbn [stretchy_ref rgenus rrel] in TP. unfold fixed_genus in TP. change g_property with 3 in G1.
      specialize (TP ltac:(lia) R1). lia.
    + intros t I G R1. destruct (TK t I G) as (j & Hj & ->). unfold asis_mem in *. rewrite (seen_slot A s _ T DS (asis_agrees A s)) in R1 by assumption.
      rewrite (seen_slot_units A s _ T DS (asis_agrees A s)) by assumption. pose proof (t_pos _ T (RP j) Hj) as TP. cbn [stretchy_ref rrel] in TP.
      specialize (TP eq_refl R1). lia.
  - unfold some_owner. rewrite EP, EI, EU, PB. intros G.
    pose proof (i_cov _ _ _ _ _ _ acc (base s)) as CV. unfold zero_d in CV. rewrite (ind_1 (base s) (tail s - base s) (base s)) in CV by (unfold base; lia).
    unfold GearBase.cov in CV.
    assert (Q : 0 < sumn (cnt s) (fun k => ind (addr s k) (len s (plen s) k) (base s)) \/ 0 < sumn (nslots s) (fun j => ind (raddr s (RP j)) (plen s (RP j)) (base s))) by lia.
    assert (Pick : forall n f, 0 < sumn n f -> exists k, (k < n)%nat /\ 0 < f k).
    { induction n as [|n IH]; intros f Hf; cbn [sumn] in Hf; [lia|]. destruct (Z.lt_ge_cases 0 (f n)); [exists n; split; [lia|assumption]|].
      destruct (IH f ltac:(lia)) as (k & K1 & K2). exists k. split; [lia|exact K2]. }
    destruct Q as [Q|Q]; apply Pick in Q as (k & K1 & K2).
    + left. exists k. split; [lia|]. unfold asis_mem. rewrite (seen_units A s _ T (asis_agrees A s)) by assumption. unfold ind in K2. lia.
    + right. exists (stype s k, 4 * soff s k). split.
      * destruct schema as [sc|]; cbn [schema_of toks_of] in *.
        { destruct SO as (_ & _ & F). assert (J : In (stype s k, 4 * soff s k) (filter (fun t => negb (fst t >? g_property)) (stoks sc))).
          { rewrite F. apply in_map_iff. exists k. split; [reflexivity|]. apply in_seq. lia. }
          apply filter_In in J. apply J. }
        { pose proof (c_soff _ (i_cfg _ _ _ _ _ _ acc) k K1). lia. }
      * unfold asis_mem. rewrite (seen_slot_units A s _ T DS (asis_agrees A s)) by assumption. unfold ind in K2. lia.
  - intros i j (I1 & I2 & I3) (J1 & J2 & J3). rewrite EP, EI in *. assert (Ki : (i < cnt s)%nat) by lia. assert (Kj : (j < cnt s)%nat) by lia. unfold asis_mem in *.
    rewrite (seen_hole A s _ T (asis_agrees A s)) in I2, J2 by assumption. rewrite (seen_units A s _ T (asis_agrees A s)) in * by assumption.
    rewrite !(seen_start A s _ T (asis_agrees A s)) by assumption. unfold len in *. rewrite I2 in *. rewrite J2 in *.
    pose proof (v_nonadj _ _ (t_inv _ T) i j) as NA. unfold nzh, hole_end, hole_begin in NA. specialize (NA ltac:(repeat split; (assumption || lia)) ltac:(repeat split; (assumption || lia))). lia.
  - intros i (I1 & I2 & I3). rewrite EP, EI, EU in *. assert (Ki : (i < cnt s)%nat) by lia. unfold asis_mem in *.
    rewrite (seen_hole A s _ T (asis_agrees A s)) in I2 by assumption. rewrite (seen_units A s _ T (asis_agrees A s)) in * by assumption.
    rewrite !(seen_start A s _ T (asis_agrees A s)) by assumption. unfold len in *. rewrite I2 in *.
    pose proof (v_notail _ _ (t_inv _ T) i) as NT. unfold nzh, hole_end, hole_begin in NT. specialize (NT ltac:(repeat split; (assumption || lia))). lia.
Qed.
(** All hypotheses hold of a tuple with a preplaced text, a loose text, a loose u64 and a hole that
    was not written by this library. *)
Definition good_layout : layout := mkL 4 1 (fun _ => 0) (fun _ => 0).
Lemma below3 k : Z.of_nat k < 3 -> k = 0%nat \/ k = 1%nat \/ k = 2%nat.
Proof. lia. Qed.
Definition good_open : option st := create_from_buffer (img good_image 4096) 4096 40 200 4 60 (Some good_schema) good_layout zeros.
Definition good_ops : list op := [OSet (fd g_u64 7) true (blob 2 4); OSlot 0 true (mkV false [1]); ORemove 9; OSet (fd g_u32 3) true (blob 1 8)].
Example C72_case : layout_for (Some good_schema) good_layout /\ proper_image (img good_image 4096) 4096 (Some good_schema) /\
  match good_open with
  | Some s => calm_runb (fun _ => false) s good_ops = true /\ outcome s good_ops = Some [true; true; true; true] /\
      field s (RL 1) = Some (fd g_u64 7, [67305985; 134678021]) /\ field s (RL 0) = Some (9, [6907906]) /\ field s (RL 2) = None /\ value s (RP 0) = [8449] /\
      get_loose (final s good_ops) (fd g_u64 7) = Some [4; 4] /\ get_loose (final s good_ops) 9 = None /\ get_slot (final s good_ops) 0 = Some [1] /\
      get_loose (final s good_ops) (fd g_u32 3) = Some [8] /\ jc s = 1 /\ jv s = 1 /\ head_space s = 4
  | None => False
  end /\ ro_view (img good_image 4096) 4096 (fd g_u64 7) = [[67305985; 134678021]].
Proof.
  split. { split; [reflexivity|]. split; [reflexivity|]. split; [intros; cbn; lia|]. split; [cbn; lia|]. intros j _. cbn. lia. }
  split.
  { assert (I3 : ro_index (img good_image 4096) 4096 = 3) by (vm_compute; reflexivity).
    constructor.
    - split.
      + rewrite I3. intros k Hk. destruct (below3 k Hk) as [-> | [-> | ->]]; vm_compute; discriminate.
      + intros t [<-|[]]. vm_compute. discriminate.
    - intros _. left. exists 0%nat. vm_compute. split; reflexivity.
    - intros i j (I1 & I2 & _) (J1 & J2 & _). rewrite I3 in I1, J1. destruct (below3 i I1) as [-> | [-> | ->]]; try discriminate I2; destruct (below3 j J1) as [-> | [-> | ->]]; try discriminate J2.
      vm_compute. discriminate.
    - intros i (I1 & I2 & _). rewrite I3 in I1. destruct (below3 i I1) as [-> | [-> | ->]]; try discriminate I2. vm_compute. discriminate. }
  vm_compute. repeat split.
Qed.

(** Two holes side by side: the read-only form is fine, the modifiable one fails its own validation,
    and two free units cannot take a value of two units. *)
Definition two_holes : list Z :=
  [9; 0; 32; 0] ++ [6; 0; 1; 0xf8] ++ [4; 0; 1; 0xf8] ++ [5; 0; 10; 0] ++ [1; 0; 9; 0] ++
  [1; 33; 0; 0] ++ [0; 0; 0; 0] ++ [0; 0; 0; 0] ++ [1; 34; 0; 0].
Definition one_hole : list Z :=
  [9; 0; 32; 0] ++ [0; 0; 0; 0xf8] ++ [4; 0; 2; 0xf8] ++ [5; 0; 10; 0] ++ [1; 0; 9; 0] ++
  [1; 33; 0; 0] ++ [0; 0; 0; 0] ++ [0; 0; 0; 0] ++ [1; 34; 0; 0].
Definition or_none (o : option st) : st := match o with Some s => s | None => new_tuple 0 0 end.
Definition got (o : option st) : bool := match o with Some _ => true | None => false end.
Lemma got_it o : got o = true -> o = Some (or_none o).
Proof. destruct o; [reflexivity|discriminate]. Qed.
Definition opened (bs : list Z) (size more : Z) : option st := create_from_buffer (img bs 4096) 4096 (Z.of_nat (length bs)) size more 0 None no_layout zeros.
Theorem C72_adjacent_holes_refuted : exists m m1 ptr bytes size d s s1 o, bytes_mem m /\ bytes_mem m1 /\
  create_from_buffer m ptr bytes size 0 0 None no_layout d = Some s /\ create_from_buffer m1 ptr bytes size 0 0 None no_layout d = Some s1 /\
  (forall k, field s (RL k) = field s1 (RL k)) /\ jv s = 2 /\ jv s1 = 2 /\
  snd (rw_audit (bytes_of 4096 (word s)) 4096 (head s) (pivot s) (tail s) (end_ s) (jc s) (jv s) None) = Trouble /\
  snd (rw_audit (bytes_of 4096 (word s1)) 4096 (head s1) (pivot s1) (tail s1) (end_ s1) (jc s1) (jv s1) None) = Good tt /\
  op_units o = 2 /\ (exists s2, run1 asis s o = Throw s2) /\ exists s2, run1 asis s1 o = Ok tt s2.
Proof.
  exists (img two_holes 4096), (img one_hole 4096), 4096, 36, 76, zeros, (or_none (opened two_holes 76 0)), (or_none (opened one_hole 76 0)), (OSet (fd g_u64 7) true (blob 2 4)).
  split; [apply img_bytes; repeat constructor; lia|]. split; [apply img_bytes; repeat constructor; lia|].
  split; [apply got_it; vm_compute; reflexivity|]. split; [apply got_it; vm_compute; reflexivity|]. split.
  { intros k. destruct k as [|[|[|[|k]]]]; reflexivity. }
  split; [reflexivity|]. split; [reflexivity|]. split; [vm_compute; reflexivity|]. split; [vm_compute; reflexivity|]. split; [reflexivity|].
  split; eexists; [apply run1_failed|apply run1_final]; vm_compute; reflexivity.
Qed.
(** Payload that belongs to nobody: accepted when there is no value at all; the units are lost, the
    counters say that there is no junk and compaction does not bring them back. *)
Definition nobody : list Z := [3; 0; 0; 0] ++ [7; 7; 7; 7] ++ [8; 8; 8; 8].
Theorem C72_lost_units_refuted : exists m ptr bytes size d s, bytes_mem m /\ create_from_buffer m ptr bytes size 0 0 None no_layout d = Some s /\
  cnt s = 0%nat /\ nslots s = 0%nat /\ tail s - pivot s = 2 /\ jc s = 0 /\ jv s = 0 /\ (forall srt, compactify srt s = s) /\
  snd (rw_audit (bytes_of 4096 (word s)) 4096 (head s) (pivot s) (tail s) (end_ s) (jc s) (jv s) None) = Good tt /\ ~ TInv s.
Proof.
  exists (img nobody 4096), 4096, 12, 100, zeros, (or_none (opened nobody 100 0)).
  split; [apply img_bytes; repeat constructor; lia|]. split; [apply got_it; vm_compute; reflexivity|]. split; [reflexivity|]. split; [reflexivity|]. split; [reflexivity|]. split; [reflexivity|].
  split; [reflexivity|]. split; [intros srt; apply compact_id; reflexivity|]. split; [vm_compute; reflexivity|].
  intros T. pose proof (i_cov _ _ _ _ _ _ (v_acc _ _ (t_inv _ T)) (base (or_none (opened nobody 100 0)))) as CV. vm_compute in CV. discriminate.
Qed.
(** A byte string of length zero may lie over the bytes of a number.  Writing the number changes the
    byte string, which then reaches behind the end of the tuple. *)
Definition overlaid : list Z := [5; 0; 16; 0] ++ [2; 0; 5; 8] ++ [1; 0; 7; 0x68] ++ [0; 0; 0; 0; 1; 0; 0; 0].
Theorem C72_overlaid_refuted : exists m ptr bytes size d s s2 o k, bytes_mem m /\ create_from_buffer m ptr bytes size 2 0 None no_layout d = Some s /\
  valid (fun _ => false) s o /\ run1 asis s o = Ok tt s2 /\ rdesc s (RL k) <> fd g_u64 7 /\ o = OSet (fd g_u64 7) true (blob 2 4) /\
  field s (RL k) <> field s2 (RL k) /\ plen s (RL k) = 0 /\ raddr s2 (RL k) + plen s2 (RL k) > tail s2.
Proof.
  exists (img overlaid 4096), 4096, 20, 200, zeros, (or_none (opened overlaid 200 2)), (final (or_none (opened overlaid 200 2)) [OSet (fd g_u64 7) true (blob 2 4)]), (OSet (fd g_u64 7) true (blob 2 4)), 1%nat.
  split; [apply img_bytes; repeat constructor; lia|]. split; [apply got_it; vm_compute; reflexivity|]. split; [apply validb_ok; vm_compute; reflexivity|].
  split; [apply run1_final; vm_compute; reflexivity|]. split; [vm_compute; discriminate|]. split; [reflexivity|]. split; [vm_compute; discriminate|]. split; vm_compute; reflexivity.
Qed.
Print Assumptions C72_opened_partial. Print Assumptions C72_edited_partial. Print Assumptions C72_audited_partial. Print Assumptions C72_written_are_proper_partial.
Print Assumptions C72_adjacent_holes_refuted. Print Assumptions C72_lost_units_refuted. Print Assumptions C72_overlaid_refuted.

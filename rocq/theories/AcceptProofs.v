(** * AcceptProofs: a modifiable tuple made from accepted bytes (proofs) *)
From Verif Require Import Base Tag TagProofs Hippeus HippeusProofs Scan Codec Gear GearBase GearSearch GearProofs
  Tuple TupleProofs Audit AuditProofs Image ImageProofs.
From Coq Require Import ZifyBool ZifyNat.
Ltac Zify.zify_post_hook ::= Z.div_mod_to_equations.

(** ** Sums of indicators *)
Lemma sumn_swap : forall n p (f : nat -> nat -> Z), sumn n (fun i => sumn p (f i)) = sumn p (fun j => sumn n (fun i => f i j)).
Proof.
  induction n as [|n IH]; intros p f; cbn [sumn].
  - symmetry. apply sumn_zero. reflexivity.
  - rewrite IH, sumn_split. reflexivity.
Qed.
Lemma ind_sum : forall n a l, 0 <= a -> 0 <= l -> sumn n (fun i => ind a l (Z.of_nat i)) = Z.max 0 (Z.min (a + l) (Z.of_nat n) - a).
Proof.
  induction n as [|n IH]; intros a l Ha Hl; cbn [sumn]; [lia|]. rewrite IH by assumption. unfold ind. lia.
Qed.
Lemma ind_sum_in n a l : 0 <= l -> (0 < l -> 0 <= a /\ a + l <= Z.of_nat n) -> sumn n (fun i => ind a l (Z.of_nat i)) = l.
Proof.
  intros Hl H. destruct (Z.eq_dec l 0) as [->|N].
  - apply sumn_zero. intros. apply ind_0. lia.
  - rewrite ind_sum by lia. lia.
Qed.

(** ** Units of an arbitrary memory *)
Lemma word_half m a : bytes_mem m -> word_at m a mod 65536 = half m a /\ word_at m a / 65536 = half m (a + 2) /\ 0 <= word_at m a < 4294967296.
Proof. intros H. unfold word_at. pose proof (half_range m a H). pose proof (half_range m (a + 2) H). lia. Qed.
Lemma word_bytes m a : bytes_mem m -> unit_bytes (word_at m a) = [m a; m (a + 1); m (a + 2); m (a + 3)].
Proof.
  intros H. unfold unit_bytes, word_at, half. replace (a + 2 + 1) with (a + 3) by lia.
  pose proof (H a). pose proof (H (a + 1)). pose proof (H (a + 2)). pose proof (H (a + 3)).
  f_equal; [|f_equal; [|f_equal; [|f_equal]]]; lia.
Qed.
Lemma brutto_word m g a : bytes_mem m -> brutto g (word_at m a) = brutto_at m g a.
Proof.
  intros H. unfold brutto, brutto_at, stretchy_brutto_units, string_brutto_units, varbin_brutto_units, nested_brutto_units, property_brutto_units, string_is_tiny.
  rewrite (word_bytes m a H). unfold u16_at, byte_at, half. cbn [nth Z.to_nat]. change (Z.to_nat 0) with 0%nat. change (Z.to_nat 1) with 1%nat.
  change (Z.to_nat (0 + 1)) with 1%nat. change (Z.to_nat (1 + 1)) with 2%nat. cbn [nth]. replace (a + 1 + 1) with (a + 2) by lia.
  change tiny_threshold with 254. destruct (g =? 0); [reflexivity|]. destruct (g =? 1); [reflexivity|]. destruct (g =? 2); reflexivity.
Qed.

(** ** One more fact about accepted indices *)
Lemma check_loose_empty_hole m au pivot pe k au' : snd (check_loose m au (entry_addr pivot k) pivot pe) = Good au' ->
  bytes_mem m -> e_hole m pivot k = true -> e_units m pivot k = 0 -> e_rel m pivot k = 0.
Proof.
  intros H Hm EH EU. unfold check_loose in H. fold (e_desc m pivot k) in H. fold (e_genus m pivot k) in H. fold (e_rel m pivot k) in H. fold (e_payload m pivot k) in H.
  unfold e_hole in EH. unfold e_units in EU. destruct (is_inplaced_genus (e_genus m pivot k)) eqn:EI.
  { apply Z.eqb_eq in EH. rewrite EH in EI. discriminate. }
  rewrite EH in *. rewrite EU in H. cbn [Z.eqb] in H. rewrite !after_snd in H. destruct (e_rel m pivot k >? 0) eqn:R; [discriminate|].
  pose proof (half_range m (entry_addr pivot k) Hm). fold (e_rel m pivot k) in *. lia.
Qed.
Lemma check_index_empty_hole m pivot pe : forall n au, snd (check_index m pivot pe n) = Good au -> bytes_mem m ->
  forall k, (k < n)%nat -> e_hole m pivot k = true -> e_units m pivot k = 0 -> e_rel m pivot k = 0.
Proof.
  induction n as [|n IH]; intros au H Hm k Hk; [lia|]. cbn [check_index] in H. apply bindc_good in H as (a & H1 & H2).
  destruct (Nat.eq_dec k n) as [->|N]; [eapply check_loose_empty_hole; eassumption|apply (IH a H1 Hm k); lia].
Qed.
Lemma audit_index m schema pivot n pe fl info : snd (audit_tuple m schema pivot n pe fl) = Good info ->
  exists au, snd (check_index m pivot pe n) = Good au /\ avol au <= 65535 /\ acount au <= 32767.
Proof.
  intros H. unfold audit_tuple in H. destruct (_ >? max_fields); [discriminate|]. apply bindc_good in H as (au & H1 & H). exists au.
  split; [exact H1|]. destruct (acount au >? 32767) eqn:E1; [discriminate|]. destruct (avol au >? 65535) eqn:E2; [discriminate|]. lia.
Qed.

(** ** What the constructor takes over *)
Section Taken.
  Variables (m : bmem) (ptr : Z) (holes : Z * Z) (size more : Z) (l : layout) (d : Z -> Z) (s : st).
  Hypothesis Hm : bytes_mem m.
  Hypothesis Hmore : 0 <= more.
  Hypothesis Hsize : 44 <= size.
  Hypothesis Hidx : ro_index m ptr <= max_fields.
  Hypothesis Hpay : 0 <= ro_payload_units m ptr.
  Hypothesis H : from_ro holes m ptr size more l d = Some s.
  Let P := ro_pivot m ptr.


  Lemma taken_sizes : pivot s = Z.min max_fields (ro_index m ptr + more) /\ tail s = pivot s + ro_payload_units m ptr /\
    end_ s = Z.min 65534 ((size - 44) / 4) /\ 4 * tail s <= size - 44.
  Proof.
    unfold from_ro in H. destruct (more >? max_fields) eqn:E1; [discriminate|]. destruct (size >? 2 * max_tuple_bytes_netto) eqn:E2; [discriminate|].
    destruct (estimate _ _ _ _) as [need|] eqn:E3; [|discriminate]. destruct (size <? need) eqn:E4; [discriminate|].
    assert (Need : need = 44 + Z.min max_fields (ro_index m ptr + more) * 4 + 4 * ro_payload_units m ptr).
    { unfold estimate in E3. destruct (l_bytes l >? max_tuple_bytes_netto); [discriminate|]. destruct (_ || _); [discriminate|].
      assert (Q : forall a b : Z, Some a = Some b -> b = a) by (intros a b Q; congruence). apply Q in E3. rewrite E3. unfold pure_tuple_size, ceil4. clear. lia. }
    assert (Q : forall a b : st, Some a = Some b -> b = a) by (intros a b Q; congruence). apply Q in H. rewrite H. cbn [pivot tail end_].
    change max_fields with 8191 in *. change max_tuple_bytes_netto with 262136 in *. split; [reflexivity|]. split; [reflexivity|].
    split; [|lia]. change max_tuple_units_netto with 65534. unfold pure_tuple_size, u32. rewrite Z.shiftr_div_pow2 by lia. change (2 ^ 2) with 4. change (2 ^ 32) with 4294967296.
    rewrite Z.mod_small by lia. reflexivity.
  Qed.
  Lemma taken_parts : cnt s = Z.to_nat (ro_index m ptr) /\ jc s = u16 (fst holes) /\ jv s = u16 (snd holes) /\
    pp s = l_units l /\ nslots s = l_n l /\ soff s = l_off l /\ stype s = l_type l.
  Proof.
    unfold from_ro in H. destruct (more >? max_fields); [discriminate|]. destruct (size >? _); [discriminate|].
    destruct (estimate _ _ _ _) as [need|]; [|discriminate]. destruct (size <? need); [discriminate|].
    assert (Q : forall a b : st, Some a = Some b -> b = a) by (intros a b Q; congruence). apply Q in H. rewrite H. cbn [cnt jc jv pp nslots soff stype]. repeat split.
  Qed.
  Lemma taken_entry k : Z.of_nat k < ro_index m ptr -> idx s k = mkE (e_rel m P k) (e_desc m P k).
  Proof.
    intros Hk. unfold from_ro in H. destruct (more >? max_fields); [discriminate|]. destruct (size >? _); [discriminate|].
    destruct (estimate _ _ _ _) as [need|]; [|discriminate]. destruct (size <? need); [discriminate|].
    assert (Q : forall a b : st, Some a = Some b -> b = a) by (intros a b Q; congruence). apply Q in H. rewrite H. cbn [idx].
    replace (Z.of_nat k <? ro_index m ptr) with true by lia. set (r := Z.min max_fields (ro_index m ptr + more)).
    replace (ptr + 4 + 4 * (r - 1 - Z.of_nat k - (r - ro_index m ptr))) with (entry_addr P k) by (unfold entry_addr, P, ro_pivot; lia).
    destruct (word_half m (entry_addr P k) Hm) as (W1 & W2 & _). rewrite W1, W2. reflexivity.
  Qed.
  Lemma taken_slot j : pre s j = half m (P + 4 * l_off l j).
  Proof.
    unfold from_ro in H. destruct (more >? max_fields); [discriminate|]. destruct (size >? _); [discriminate|].
    destruct (estimate _ _ _ _) as [need|]; [|discriminate]. destruct (size <? need); [discriminate|].
    assert (Q : forall a b : st, Some a = Some b -> b = a) by (intros a b Q; congruence). apply Q in H. rewrite H. cbn [pre].
    set (r := Z.min max_fields (ro_index m ptr + more)).
    replace (ptr + 4 + 4 * (r + l_off l j - (r - ro_index m ptr))) with (P + 4 * l_off l j) by (unfold P, ro_pivot; lia).
    apply (word_half m _ Hm).
  Qed.
  Lemma taken_data x : pivot s <= x < tail s -> dat s x = word_at m (P + 4 * (x - pivot s)).
  Proof.
    destruct taken_sizes as (E1 & E2 & _). rewrite E2, E1. intros Hx.
    unfold from_ro in H. destruct (more >? max_fields); [discriminate|]. destruct (size >? _); [discriminate|].
    destruct (estimate _ _ _ _) as [need|]; [|discriminate]. destruct (size <? need); [discriminate|].
    assert (Q : forall a b : st, Some a = Some b -> b = a) by (intros a b Q; congruence). apply Q in H. rewrite H. cbn [dat pivot].
    set (r := Z.min max_fields (ro_index m ptr + more)) in *. replace ((r <=? x) && (x <? r + ro_payload_units m ptr)) with true by lia.
    f_equal. unfold P, ro_pivot. lia.
  Qed.
End Taken.

(** ** Images that are put together properly: more than the validator asks for *)
(** the references of the schema, in the order of its tokens *)
Definition layout_for (schema : option sch) (l : layout) : Prop :=
  l_bytes l = pbytes_of schema /\
  filter (fun t => negb (fst t >? g_property)) (toks_of schema) = map (fun j => (l_type l j, 4 * l_off l j)) (seq 0 (l_n l)) /\
  (forall j, (j < l_n l)%nat -> 0 <= l_type l j) /\
  0 <= pbytes_of schema /\ (forall j, (j < l_n l)%nat -> 0 <= l_off l j /\ 4 * l_off l j + 2 <= pbytes_of schema).
(** a variable-length value that is there takes some units *)
Definition no_empty_values (m : bmem) (ptr : Z) (schema : option sch) : Prop :=
  let P := ro_pivot m ptr in
  (forall k, Z.of_nat k < ro_index m ptr -> e_genus m P k <= g_property -> e_rel m P k <> 0 -> e_units m P k <> 0) /\
  (forall t, In t (toks_of schema) -> fst t <= g_property -> t_rel m P t <> 0 -> t_units m P t <> 0).
(** holes do not touch each other nor the end *)
Definition is_gap (m : bmem) (ptr : Z) (k : nat) : Prop :=
  Z.of_nat k < ro_index m ptr /\ e_hole m (ro_pivot m ptr) k = true /\ 0 < e_units m (ro_pivot m ptr) k.
Definition gaps_apart (m : bmem) (ptr : Z) : Prop :=
  let P := ro_pivot m ptr in
  forall i j, is_gap m ptr i -> is_gap m ptr j -> e_start m P i + e_units m P i <> e_start m P j.
Definition gaps_inside (m : bmem) (ptr : Z) : Prop :=
  let P := ro_pivot m ptr in
  forall i, is_gap m ptr i -> e_start m P i + e_units m P i <> ro_payload_units m ptr.
(** bytes after the preplaced part belong to somebody *)
Definition some_owner (m : bmem) (ptr : Z) (schema : option sch) : Prop :=
  let P := ro_pivot m ptr in
  bytes2units (pbytes_of schema) < ro_payload_units m ptr ->
  (exists k, Z.of_nat k < ro_index m ptr /\ 0 < e_units m P k) \/ (exists t, In t (toks_of schema) /\ 0 < t_units m P t).

Section Accepted.
  Variables (m : bmem) (ptr bytes : Z) (schema : option sch) (info : Z * Z).
  Variables (size more : Z) (l : layout) (d : Z -> Z) (s : st).
  Hypothesis Hm : bytes_mem m.
  Hypothesis Hmore : 0 <= more.
  Hypothesis Hsize : 44 <= size.
  Hypothesis LF : layout_for schema l.
  Hypothesis OK : snd (ro_audit m ptr bytes schema) = Good info.
  Hypothesis H : from_ro info m ptr size more l d = Some s.
  Hypothesis NE : no_empty_values m ptr schema.
  Hypothesis SO : some_owner m ptr schema.
  Hypothesis Fit : pivot s + ro_payload_units m ptr <= 65534.
  Let P := ro_pivot m ptr.
  Let n := Z.to_nat (ro_index m ptr).
  Let U := ro_payload_units m ptr.

  Lemma acc_bounds : 0 <= ro_index m ptr <= 8191 /\ 0 <= U <= 65533 /\ ptr + bytes = P + 4 * U /\ ptr <> 0.
  Proof.
    pose proof OK as O. unfold ro_audit in O. apply bindc_good in O as (u & L & _). destruct u.
    destruct (lite_checkup_good _ _ _ L) as (L1 & L2 & L3 & L4 & L5 & L6). pose proof (ro_index_range m ptr Hm) as IR.
    unfold U, P, ro_payload_units, ro_pivot in *. change max_fields with 8191 in *. change max_tuple_bytes_netto with 262136 in *. lia.
  Qed.
  Lemma acc_sound :
    info = (holes_upto m P n, volume_upto m P n) /\
    (forall k, (k < n)%nat -> (0 < e_units m P k -> e_rel m P k <> 0) /\
       (e_rel m P k <> 0 -> is_inplaced_genus (e_genus m P k) = false -> 0 <= e_start m P k /\ e_start m P k + e_units m P k <= U)) /\
    (forall k, (k < n)%nat -> e_hole m P k = true -> e_units m P k = 0 -> e_rel m P k = 0) /\
    holes_upto m P n <= 32767 /\ volume_upto m P n <= 65535 /\
    bytes2units (pbytes_of schema) <= U /\
    (forall t, In t (toks_of schema) -> fst t <= g_property -> t_rel m P t <> 0 -> pbytes_of schema <> 0 ->
       P <= t_payload m P t /\ t_payload m P t + 4 * t_units m P t <= P + 4 * U) /\
    (forall x, cover_upto m P n x + (if pbytes_of schema =? 0 then 0 else cover_toks m P (toks_of schema) x) =
       ind (bytes2units (pbytes_of schema)) (U - bytes2units (pbytes_of schema)) x).
  Proof.
    destruct acc_bounds as (B1 & B2 & B3 & B4). pose proof OK as O. unfold ro_audit in O. apply bindc_good in O as (u & L & O). destruct u.
    destruct (lite_checkup_good _ _ _ L) as (_ & _ & _ & L4 & _ & _).
    assert (PE : ro_end m ptr = P + 4 * U) by (unfold ro_end; lia). rewrite PE in O. fold P in O. fold n in O.
    destruct LF as (F1 & F2 & F3 & F4 & F5).
    assert (Q : (P + 4 * U - P) / 4 = U) by (clear; lia).
    destruct (audit_tuple_sound m schema P n (P + 4 * U) _ info Hm ltac:(lia) ltac:(clear; lia) F4 O) as (I & A1 & A2 & A3).
    destruct (audit_index _ _ _ _ _ _ _ O) as (au & X1 & X2 & X3). destruct (check_index_sound m P (P + 4 * U) n au Hm ltac:(lia) X1) as (_ & _ & Y1 & Y2 & _).
    split; [exact I|]. split.
    { intros k Hk. destruct (A1 k Hk) as [C1 C2]. split; [exact C1|]. intros R E. specialize (C2 R E). unfold e_payload, e_start, entry_addr in *. lia. }
    split; [apply (check_index_empty_hole m P _ n au X1 Hm)|]. split; [lia|]. split; [lia|].
    split.
    { destruct (Z.eq_dec (pbytes_of schema) 0) as [->|N]; [cbn; lia|]. destruct (A2 N) as [A2' _]. rewrite bytes2units_div. lia. }
    split.
    { intros t I1 I2 I3 N. exact (proj2 (A2 N) t I1 I2 I3). }
    cbv zeta in A3. rewrite Q in A3. destruct A3 as [Z0|[_ A3]]; [|exact A3].
    intros x. rewrite Z0. destruct (Z.lt_ge_cases (bytes2units (pbytes_of schema)) U) as [G|G]; [|symmetry; apply ind_0; lia].
    exfalso. destruct (SO G) as [(k & K1 & K2)|(t & T1 & T2)].
    - specialize (Z0 (e_start m P k)). assert (Hk : (k < n)%nat) by (unfold n; lia).
      assert (C1 : 1 <= cover_upto m P n (e_start m P k)).
      { unfold cover_upto. pose proof (sumn_ge1 n (fun i => ind (e_start m P i) (e_units m P i) (e_start m P k)) k Hk (fun i _ => proj1 (ind_range _ _ _))) as S1.
        cbv beta in S1. rewrite ind_1 in S1; [exact S1|]. fold P in K2. lia. }
      assert (C2 : forall toks x0, 0 <= cover_toks m P toks x0).
      { induction toks as [|t toks IH]; intros x0; cbn [cover_toks]; [lia|]. pose proof (ind_range (t_start m P t) (t_units m P t) x0). specialize (IH x0). lia. }
      specialize (C2 (toks_of schema) (e_start m P k)). destruct (pbytes_of schema =? 0); lia.
    - fold P in T2. specialize (Z0 (t_start m P t)).
      assert (N : pbytes_of schema <> 0).
      { intros N0. assert (G1 : fst t <= g_property) by (unfold t_units in T2; destruct (fst t >? g_property) eqn:E; lia).
        assert (J : In t (filter (fun t => negb (fst t >? g_property)) (toks_of schema))). { apply filter_In. split; [exact T1|]. lia. }
        rewrite F2 in J. apply in_map_iff in J as (j & _ & J). apply in_seq in J. destruct (F5 j ltac:(lia)). lia. }
      replace (pbytes_of schema =? 0) with false in Z0 by lia.
      assert (C2 : forall toks, In t toks -> 1 <= cover_toks m P toks (t_start m P t)).
      { assert (C0 : forall toks x0, 0 <= cover_toks m P toks x0).
        { induction toks as [|t0 toks IH]; intros x0; cbn [cover_toks]; [lia|]. pose proof (ind_range (t_start m P t0) (t_units m P t0) x0). specialize (IH x0). lia. }
        induction toks as [|t0 toks IH]; intros J; [destruct J|]. cbn [cover_toks]. destruct J as [->|J].
        - rewrite ind_1 by lia. pose proof (C0 toks (t_start m P t)). lia.
        - pose proof (ind_range (t_start m P t0) (t_units m P t0) (t_start m P t)). specialize (IH J). lia. }
      specialize (C2 _ T1). assert (C1 : 0 <= cover_upto m P n (t_start m P t)) by (apply sumn_nonneg; intros; apply ind_range). lia.
  Qed.

  Lemma acc_cnt k : (k < cnt s)%nat <-> Z.of_nat k < ro_index m ptr.
  Proof.
    destruct acc_bounds as (B1 & B2 & B3 & B4). destruct (taken_parts m ptr info size more l d s H) as (T1 & _). rewrite T1. lia.
  Qed.
  Lemma acc_entry k : (k < cnt s)%nat -> rel (idx s k) = e_rel m P k /\ gid (idx s k) = e_desc m P k.
  Proof.
    intros Hk. apply acc_cnt in Hk. rewrite (taken_entry m ptr info size more l d s Hm H k Hk). split; reflexivity.
  Qed.
  Lemma acc_sizes : pivot s = Z.min 8191 (ro_index m ptr + more) /\ tail s = pivot s + U /\ end_ s = Z.min 65534 ((size - 44) / 4) /\ 4 * tail s <= size - 44.
  Proof.
    destruct acc_bounds as (B1 & B2 & B3 & B4).
    apply (taken_sizes m ptr info size more l d s); try assumption; unfold U in *; change max_fields with 8191; lia.
  Qed.
  Lemma acc_addr k : (k < cnt s)%nat -> addr s k = pivot s + e_start m P k.
  Proof. intros Hk. unfold addr, own. rewrite (proj1 (acc_entry k Hk)). unfold e_start. lia. Qed.
  Lemma acc_genus k : (k < cnt s)%nat -> egenus (idx s k) = e_genus m P k.
  Proof. intros Hk. unfold egenus, e_genus. rewrite (proj2 (acc_entry k Hk)). reflexivity. Qed.
  Lemma acc_hole k : (k < cnt s)%nat -> is_hole (idx s k) = e_hole m P k.
  Proof. intros Hk. change (is_hole (idx s k)) with (egenus (idx s k) =? g_hole). rewrite acc_genus by assumption. reflexivity. Qed.
  Lemma acc_data x : pivot s <= x < tail s -> dat s x = word_at m (P + 4 * (x - pivot s)).
  Proof.
    intros Hx. destruct acc_bounds as (B1 & B2 & B3 & B4).
    apply (taken_data m ptr info size more l d s); try assumption; unfold U in *; change max_fields with 8191; lia.
  Qed.
  Lemma acc_len k : (k < cnt s)%nat -> len s (plen s) k = e_units m P k.
  Proof.
    intros Hk. assert (Hk' := Hk). apply acc_cnt in Hk'. assert (Kn : (k < n)%nat) by (unfold n; lia).
    destruct acc_sound as (_ & A1 & _). destruct (A1 k Kn) as [A2 A3]. destruct acc_sizes as (Z1 & Z2 & _).
    unfold len. rewrite acc_hole by assumption. unfold e_units in *. unfold e_hole.
    destruct (is_inplaced_genus (e_genus m P k)) eqn:EI.
    { destruct (inplaced_units _ EI) as [Q1 Q2]. destruct (e_genus m P k =? g_hole) eqn:EH.
      { apply Z.eqb_eq in EH. rewrite EH in EI. discriminate. }
      unfold plen. cbn [rgenus]. rewrite acc_genus, Q2 by assumption. exact Q1. }
    destruct (e_genus m P k =? g_hole) eqn:EH.
    { unfold hunits. rewrite (proj2 (acc_entry k Hk)). reflexivity. }
    unfold plen. cbn [rgenus rrel]. rewrite acc_genus, (proj1 (acc_entry k Hk)) by assumption.
    change g_property with 3 in *. replace (e_genus m P k >? 3) with (fixed_genus (e_genus m P k)) in * by (unfold fixed_genus; lia).
    destruct (fixed_genus (e_genus m P k)) eqn:EF; [reflexivity|]. destruct (e_rel m P k =? 0) eqn:ER; [reflexivity|].
    change (raddr s (RL k)) with (addr s k). specialize (A3 ltac:(lia) eq_refl).
    pose proof (proj1 NE k Hk') as NE1. fold P in NE1. unfold e_units in NE1. rewrite EI, EH in NE1. change g_property with 3 in NE1.
    replace (e_genus m P k >? 3) with false in NE1 by (unfold fixed_genus in EF; lia). rewrite ER in NE1.
    specialize (NE1 ltac:(unfold fixed_genus in EF; lia) ltac:(lia)). pose proof (brutto_at_range m (e_genus m P k) (e_payload m P k) Hm).
    rewrite acc_data by (rewrite acc_addr by assumption; lia). rewrite acc_addr by assumption. rewrite brutto_word by assumption.
    f_equal. unfold e_payload, e_start, entry_addr. lia.
  Qed.

  (** preplaced references *)
  Let tok (j : nat) : Z * Z := (l_type l j, 4 * l_off l j).
  Lemma acc_tok j : (j < nslots s)%nat -> In (tok j) (toks_of schema) /\ fst (tok j) <= g_property /\ 0 <= l_type l j /\
    0 <= l_off l j /\ 4 * l_off l j + 2 <= pbytes_of schema.
  Proof.
    destruct (taken_parts m ptr info size more l d s H) as (_ & _ & _ & _ & T5 & _). rewrite T5. intros Hj.
    destruct LF as (F1 & F2 & F3 & F4 & F5). assert (I : In (tok j) (map tok (seq 0 (l_n l)))) by (apply in_map, in_seq; lia).
    change (map tok (seq 0 (l_n l))) with (map (fun j => (l_type l j, 4 * l_off l j)) (seq 0 (l_n l))) in I. rewrite <- F2 in I. apply filter_In in I as [I1 I2].
    split; [exact I1|]. split; [lia|]. split; [apply F3; exact Hj|apply F5; exact Hj].
  Qed.
  Lemma acc_slot j : pre s j = t_rel m P (tok j).
  Proof. rewrite (taken_slot m ptr info size more l d s Hm H j). unfold t_rel. reflexivity. Qed.
  Lemma acc_slot_addr j : raddr s (RP j) = pivot s + l_off l j + t_rel m P (tok j).
  Proof.
    unfold raddr. cbn [rown rrel]. destruct (taken_parts m ptr info size more l d s H) as (_ & _ & _ & _ & _ & T6 & _). rewrite T6, acc_slot. lia.
  Qed.
  Lemma acc_slot_start j : t_start m P (tok j) = l_off l j + t_rel m P (tok j).
  Proof. unfold t_start, t_payload. change (snd (tok j)) with (4 * l_off l j). generalize (t_rel m P (tok j)) (l_off l j). intros r o. clear. lia. Qed.
  Lemma acc_slot_len j : (j < nslots s)%nat -> plen s (RP j) = t_units m P (tok j).
  Proof.
    intros Hj. destruct (acc_tok j Hj) as (K1 & K2 & K3 & K4 & K5). destruct acc_sizes as (Z1 & Z2 & _).
    destruct (taken_parts m ptr info size more l d s H) as (_ & _ & _ & _ & _ & _ & T7).
    destruct acc_sound as (_ & _ & _ & _ & _ & A5 & A6 & _).
    unfold plen, t_units. cbn [rgenus rrel]. rewrite T7, acc_slot. replace (fst (tok j) >? g_property) with false by lia.
    destruct (t_rel m P (tok j) =? 0) eqn:ER; [reflexivity|].
    assert (NB : pbytes_of schema <> 0) by lia. specialize (A6 (tok j) K1 K2 ltac:(lia) NB).
    pose proof (proj2 NE (tok j) K1 K2) as NE2. fold P in NE2. specialize (NE2 ltac:(lia)). unfold t_units in NE2, A6. replace (fst (tok j) >? g_property) with false in * by lia. rewrite ER in *.
    pose proof (brutto_at_range m (fst (tok j)) (t_payload m P (tok j)) Hm) as R. pose proof (half_range m (P + snd (tok j)) Hm) as R2. fold (t_rel m P (tok j)) in R2.
    assert (TP : t_payload m P (tok j) = P + 4 * (l_off l j + t_rel m P (tok j))) by (unfold t_payload; change (snd (tok j)) with (4 * l_off l j); lia).
    rewrite acc_data by (rewrite acc_slot_addr; lia). rewrite brutto_word by assumption. change (fst (tok j)) with (l_type l j). f_equal. rewrite acc_slot_addr. lia.
  Qed.

  Lemma acc_cov x : GearBase.cov s (plen s) x = ind (base s) (tail s - base s) x.
  Proof.
    destruct acc_sizes as (Z1 & Z2 & _). destruct acc_sound as (_ & _ & _ & _ & _ & _ & _ & A7).
    destruct (taken_parts m ptr info size more l d s H) as (T1 & _ & _ & T4 & T5 & T6 & _). fold n in T1. destruct LF as (F1 & F2 & F3 & F4 & F5).
    specialize (A7 (x - pivot s)). unfold base. rewrite Z2, T4. unfold l_units. rewrite F1.
    replace (ind (pivot s + bytes2units (pbytes_of schema)) (pivot s + U - (pivot s + bytes2units (pbytes_of schema))) x)
      with (ind (bytes2units (pbytes_of schema)) (U - bytes2units (pbytes_of schema)) (x - pivot s)) by (unfold ind; clear; lia).
    rewrite <- A7. unfold GearBase.cov. f_equal.
    - unfold cover_upto. rewrite T1. apply sumn_ext. intros k Hk. rewrite <- T1 in Hk. rewrite acc_addr, acc_len by assumption. unfold ind. clear. lia.
    - assert (E : sumn (nslots s) (fun j => ind (raddr s (RP j)) (plen s (RP j)) x) = cover_toks m P (toks_of schema) (x - pivot s)).
      { rewrite cover_toks_filter, F2. change (fun j : nat => (l_type l j, 4 * l_off l j)) with tok. rewrite cover_toks_sum, T5. apply sumn_ext. intros j Hj. rewrite <- T5 in Hj.
        rewrite acc_slot_len, acc_slot_addr, acc_slot_start by assumption. unfold ind. clear. lia. }
      rewrite E. destruct (pbytes_of schema =? 0) eqn:E0; [|reflexivity]. rewrite <- E. rewrite T5. apply sumn_zero. intros j Hj. specialize (F5 j Hj). lia.
  Qed.
  Lemma acc_inside k : (k < cnt s)%nat -> 0 < e_units m P k -> 0 <= e_start m P k /\ e_start m P k + e_units m P k <= U.
  Proof.
    intros Hk Pos. apply acc_cnt in Hk. assert (Kn : (k < n)%nat) by (unfold n; lia). destruct acc_sound as (_ & A1 & _). destruct (A1 k Kn) as [A2 A3].
    apply A3; [apply A2; exact Pos|]. unfold e_units in Pos. destruct (is_inplaced_genus (e_genus m P k)); [lia|reflexivity].
  Qed.
  Lemma acc_total : total s (plen s) = tail s - base s.
  Proof.
    destruct acc_sizes as (Z1 & Z2 & _). destruct acc_bounds as (B1 & B2 & B3 & B4). destruct acc_sound as (_ & _ & _ & _ & _ & A5 & A6 & _).
    destruct (taken_parts m ptr info size more l d s H) as (_ & _ & _ & T4 & _). destruct LF as (F1 & F2 & F3 & F4 & F5).
    set (N := Z.to_nat U). assert (HN : Z.of_nat N = U) by (unfold N; lia).
    assert (PB : pp s = bytes2units (pbytes_of schema)) by (rewrite T4; unfold l_units; rewrite F1; reflexivity).
    assert (PN : 0 <= pp s) by (rewrite PB, bytes2units_div; lia).
    assert (S0 : sumn N (fun i => GearBase.cov s (plen s) (pivot s + Z.of_nat i)) = tail s - base s).
    { rewrite (sumn_ext N _ (fun i => ind (pp s) (U - pp s) (Z.of_nat i))).
      - rewrite ind_sum_in by lia. unfold base. lia.
      - intros i _. rewrite acc_cov. unfold ind, base. rewrite Z2. clear. lia. }
    rewrite <- S0. unfold GearBase.cov. rewrite sumn_split.
    rewrite (sumn_swap N (cnt s) (fun i k => ind (addr s k) (len s (plen s) k) (pivot s + Z.of_nat i))).
    rewrite (sumn_swap N (nslots s) (fun i j => ind (raddr s (RP j)) (plen s (RP j)) (pivot s + Z.of_nat i))). unfold total. f_equal; apply sumn_ext.
    - intros k Hk. rewrite acc_len by assumption. symmetry. rewrite (sumn_ext N _ (fun i => ind (e_start m P k) (e_units m P k) (Z.of_nat i))).
      + apply ind_sum_in; [apply e_units_range; exact Hm|]. intros Pos. rewrite HN. apply acc_inside; assumption.
      + intros i _. rewrite acc_addr by assumption. unfold ind. clear. lia.
    - intros j Hj. destruct (acc_tok j Hj) as (K1 & K2 & K3 & K4 & K5). rewrite acc_slot_len by assumption. symmetry.
      rewrite (sumn_ext N _ (fun i => ind (t_start m P (tok j)) (t_units m P (tok j)) (Z.of_nat i))).
      + apply ind_sum_in; [apply t_units_range; exact Hm|]. intros Pos. rewrite HN.
        assert (R : t_rel m P (tok j) <> 0). { intros R. unfold t_units in Pos. rewrite R in Pos. destruct (fst (tok j) >? g_property); cbn in Pos; lia. }
        assert (NB : pbytes_of schema <> 0) by lia. specialize (A6 (tok j) K1 K2 R NB). rewrite acc_slot_start.
        unfold t_payload in A6. change (snd (tok j)) with (4 * l_off l j) in A6. lia.
      + intros i _. rewrite acc_slot_addr, acc_slot_start. unfold ind. clear. lia.
  Qed.
  Theorem accepted_acc : Inv0 s (plen s).
  Proof.
    destruct acc_sizes as (Z1 & Z2 & Z3 & Z4). destruct acc_bounds as (B1 & B2 & B3 & B4). destruct acc_sound as (A0 & A1 & A2 & A3 & A4 & A5 & A6 & _).
    destruct (taken_parts m ptr info size more l d s H) as (T1 & T2 & T3 & T4 & T5 & T6 & T7). fold n in T1. destruct LF as (F1 & F2 & F3 & F4 & F5).
    assert (PB : pp s = bytes2units (pbytes_of schema)) by (rewrite T4; unfold l_units; rewrite F1; reflexivity).
    assert (HH : 0 <= holes_upto m P n) by (apply sumn_nonneg; intros; unfold Z.b2z; destruct (e_hole m P k); lia).
    assert (VV : 0 <= volume_upto m P n).
    { apply sumn_nonneg. intros k _. pose proof (e_units_range m P k Hm). destruct (e_hole m P k); lia. }
    rewrite A0 in T2, T3. cbn [fst snd] in T2, T3. unfold u16 in T2, T3. change (2 ^ 16) with 65536 in *. rewrite Z.mod_small in T2, T3 by lia.
    constructor.
    - constructor; unfold base; rewrite ?Z2, ?PB.
      + rewrite T1. unfold n. lia.
      + rewrite bytes2units_div. lia.
      + fold U in Fit. rewrite Z3. lia.
      + rewrite Z3. lia.
      + intros j Hj. destruct (acc_tok j Hj) as (K1 & K2 & K3 & K4 & K5). rewrite T6, bytes2units_div. lia.
    - intros x. rewrite acc_cov. unfold zero_d. lia.
    - intros r. apply plen_nonneg.
    - rewrite acc_total. lia.
    - rewrite T2, Z.add_0_r, T1. unfold holes_upto. apply sumn_ext. intros k Hk. rewrite <- T1 in Hk. unfold hcount. rewrite acc_hole by assumption. reflexivity.
    - rewrite T3, Z.add_0_r, T1. unfold volume_upto. apply sumn_ext. intros k Hk. rewrite <- T1 in Hk. unfold hvol.
      rewrite <- (acc_len k Hk). unfold len. rewrite acc_hole by assumption. destruct (e_hole m P k); reflexivity.
    - intros k Hk. destruct (acc_entry k Hk) as [E1 E2]. unfold ent_ok. rewrite E1, E2. split; [apply half_range; exact Hm|]. split; [apply half_range; exact Hm|].
      intros Q1 Q2. assert (Hk' := Hk). apply acc_cnt in Hk'. apply A2; [unfold n; lia|rewrite <- acc_hole by assumption; exact Q1|].
      rewrite <- acc_len by assumption. unfold len. rewrite Q1. exact Q2.
    - intros j Hj. rewrite acc_slot. apply half_range. exact Hm.
    - lia.
    - lia.
  Qed.
  Theorem accepted_inv : gaps_apart m ptr -> gaps_inside m ptr -> TInv s.
  Proof.
    intros GA GI. destruct acc_sizes as (Z1 & Z2 & Z3 & Z4).
    assert (GP : forall i, nzh s i -> is_gap m ptr i /\ hole_begin s i = pivot s + e_start m P i /\ hole_end s i = pivot s + (e_start m P i + e_units m P i)).
    { intros i (N1 & N2 & N3). pose proof (acc_len i N1) as E. unfold len in E. rewrite N2 in E. unfold hole_begin, hole_end. rewrite acc_addr by assumption.
      split; [|rewrite <- E; lia]. split; [apply acc_cnt; exact N1|]. split; [rewrite <- N2; symmetry; apply acc_hole; exact N1|fold P; lia]. }
    constructor.
    - constructor; [apply accepted_acc| |].
      + intros i j Ni Nj. destruct (GP i Ni) as (G1 & _ & E1). destruct (GP j Nj) as (G2 & E2 & _). rewrite E1, E2. pose proof (GA i j G1 G2) as G. fold P in G. lia.
      + intros i Ni. destruct (GP i Ni) as (G1 & _ & E1). rewrite E1, Z2. pose proof (GI i G1) as G. fold P in G. fold U in G. lia.
    - intros r Lr Sr Rr. destruct r as [k|j].
      + destruct Lr as [Hk Hh]. cbn [stretchy_ref rgenus rrel] in *. rewrite acc_genus in Sr by assumption. rewrite (proj1 (acc_entry k Hk)) in Rr.
        pose proof (acc_len k Hk) as E. unfold len in E. rewrite Hh in E. rewrite E. assert (Hk' := Hk). apply acc_cnt in Hk'.
        pose proof (proj1 NE k Hk') as N1. fold P in N1. pose proof (e_units_range m P k Hm).
        unfold fixed_genus in Sr. change g_property with 3 in N1. specialize (N1 ltac:(lia) Rr). lia.
      + cbn [rrel] in Rr. rewrite acc_slot in Rr. destruct (acc_tok j Lr) as (K1 & K2 & _). rewrite acc_slot_len by exact Lr.
        pose proof (proj2 NE (tok j) K1 K2 Rr) as N2. fold P in N2. pose proof (t_units_range m P (tok j) Hm). lia.
    - intros j Hj. destruct (acc_tok j Hj) as (K1 & K2 & K3 & _). destruct (taken_parts m ptr info size more l d s H) as (_ & _ & _ & _ & _ & _ & T7). rewrite T7.
      change g_property with 3 in K2. change (fst (tok j)) with (l_type l j) in K2. lia.
  Qed.
  (** the fields are what a reader of the bytes finds *)
  Lemma acc_words a u : 0 <= a -> a + u <= U -> read_units s (pivot s + a) u = map (fun i => word_at m (P + 4 * a + 4 * Z.of_nat i)) (seq 0 (Z.to_nat u)).
  Proof.
    intros H1 H2. destruct acc_sizes as (_ & Z2 & _). unfold read_units. apply map_ext_in. intros i Hi. apply in_seq in Hi.
    rewrite acc_data by lia. f_equal. lia.
  Qed.
  Lemma acc_value k : (k < cnt s)%nat -> e_hole m P k = false ->
    value s (RL k) = if is_inplaced_genus (e_genus m P k) then [e_rel m P k]
                     else map (fun i => word_at m (e_payload m P k + 4 * Z.of_nat i)) (seq 0 (Z.to_nat (e_units m P k))).
  Proof.
    intros Hk Hh. unfold value. cbn [rgenus rrel]. rewrite acc_genus, (proj1 (acc_entry k Hk)) by assumption.
    destruct (is_inplaced_genus (e_genus m P k)); [reflexivity|].
    pose proof (acc_len k Hk) as E. unfold len in E. rewrite acc_hole, Hh in E by assumption. rewrite E.
    pose proof (e_units_range m P k Hm). destruct (Z.eq_dec (e_units m P k) 0) as [Z0|N0]; [rewrite Z0; reflexivity|].
    change (raddr s (RL k)) with (addr s k). rewrite acc_addr by assumption. destruct (acc_inside k Hk ltac:(lia)).
    rewrite acc_words by assumption. replace (P + 4 * e_start m P k) with (e_payload m P k) by (unfold e_payload, e_start, entry_addr; lia). reflexivity.
  Qed.
  Lemma acc_slot_value j : (j < nslots s)%nat ->
    value s (RP j) = map (fun i => word_at m (t_payload m P (tok j) + 4 * Z.of_nat i)) (seq 0 (Z.to_nat (t_units m P (tok j)))).
  Proof.
    intros Hj. destruct (acc_tok j Hj) as (K1 & K2 & K3 & K4 & K5). unfold value. rewrite acc_slot_len by assumption.
    pose proof (t_units_range m P (tok j) Hm). destruct (Z.eq_dec (t_units m P (tok j)) 0) as [Z0|N0]; [rewrite Z0; reflexivity|].
    assert (R : t_rel m P (tok j) <> 0). { intros R. unfold t_units in N0. rewrite R in N0. destruct (fst (tok j) >? g_property); cbn in N0; lia. }
    destruct acc_sound as (_ & _ & _ & _ & _ & _ & A6 & _). specialize (A6 (tok j) K1 K2 R ltac:(lia)).
    assert (TP : t_payload m P (tok j) = P + 4 * (l_off l j + t_rel m P (tok j))) by (unfold t_payload; change (snd (tok j)) with (4 * l_off l j); lia).
    rewrite acc_slot_addr. replace (pivot s + l_off l j + t_rel m P (tok j)) with (pivot s + (l_off l j + t_rel m P (tok j))) by lia.
    pose proof (half_range m (P + snd (tok j)) Hm) as R2. fold (t_rel m P (tok j)) in R2.
    rewrite acc_words by lia. rewrite TP. reflexivity.
  Qed.
End Accepted.

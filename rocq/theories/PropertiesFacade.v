(** * PropertiesFacade: C73, checking and opening through the C interface; C74, counts and sizes. *)
From Verif Require Import Base Tag TagProofs Codec Gear GearBase GearSearch GearProofs GearAlloc GearRealloc Tuple TupleProofs TupleSteps TupleView TupleOps TupleMore
  TupleHist TupleFacts PropertiesTuple Hippeus HippeusProofs Scan ScanProofs Audit AuditProofs Image ImageProofs PropertiesAudit PropertiesImage GearOpt GearOptProofs PropertiesOpt
  Growth GrowthProofs PropertiesGrowth AcceptProofs PropertiesAccept Facade.
From Coq Require Import ZifyBool ZifyNat Permutation.
Ltac Zify.zify_post_hook ::= Z.div_mod_to_equations.

(** ** C73 *)
Definition ends {A} (c : chk A) : Prop := snd c <> Thrown.
Lemma ends_after {A} t (c : chk A) : ends c -> ends (after t c).
Proof. exact (fun H => H). Qed.
Lemma ends_bind {A B} (c : chk A) (f : A -> chk B) : ends c -> (forall a, snd c = Good a -> ends (f a)) -> ends (bindc c f).
Proof. unfold ends, bindc. destruct c as [t [a| |]]; cbn [snd]; intros H1 H2; [apply H2; reflexivity|discriminate|congruence]. Qed.
Lemma ends_if {A} (b : bool) (c1 c2 : chk A) : ends c1 -> ends c2 -> ends (if b then c1 else c2).
Proof. destruct b; auto. Qed.
Lemma ends_ret {A} (a : A) : ends (ret a). Proof. discriminate. Qed.
Lemma ends_trouble {A} : ends (@trouble A). Proof. discriminate. Qed.
Lemma ends_chunk l c u pb pe : ends (check_chunk l c u pb pe).
Proof. unfold check_chunk. repeat (apply ends_if; [apply ends_trouble|]). destruct (map_insert _ _ _); discriminate. Qed.
Lemma ends_loose m au a pb pe : ends (check_loose m au a pb pe).
Proof.
  unfold check_loose. cbv zeta. apply ends_after, ends_if; [apply ends_ret|]. apply ends_after, ends_if.
  - apply ends_if; [apply ends_if; [apply ends_trouble|apply ends_ret]|]. apply ends_if; [apply ends_trouble|]. apply ends_bind; [apply ends_chunk|intros; apply ends_ret].
  - apply ends_if; [apply ends_if; [apply ends_trouble|]; apply ends_bind; [apply ends_chunk|intros; apply ends_ret]|].
    apply ends_if; [|apply ends_ret]. apply ends_after, ends_bind; [apply ends_chunk|intros; apply ends_ret].
Qed.
Lemma ends_index m pivot pe : forall n, ends (check_index m pivot pe n).
Proof. induction n as [|n IH]; cbn [check_index]; [apply ends_ret|]. apply ends_bind; [exact IH|intros; apply ends_loose]. Qed.
Lemma ends_audit m ptr len : bytes_mem m -> ends (ro_audit m ptr len None).
Proof.
  intros Hm. unfold ro_audit. apply ends_bind.
  - unfold lite_checkup. do 4 (apply ends_if; [apply ends_trouble|]). apply ends_after. apply ends_if; [apply ends_trouble|]. apply ends_after.
    do 2 (apply ends_if; [apply ends_trouble|]). apply ends_ret.
  - intros [] L. destruct (lite_checkup_good _ _ _ L) as (_ & _ & _ & _ & L5 & _). pose proof (ro_index_range m ptr Hm) as IR. unfold audit_tuple. cbv zeta.
    replace (Z.of_nat (Z.to_nat (ro_index m ptr)) + 0 >? max_fields) with false by lia.
    apply ends_bind; [apply ends_index|]. intros au _. do 4 (apply ends_if; [apply ends_trouble|]).
    apply ends_bind; [apply ends_ret|]. intros l _. apply ends_bind.
    { destruct l as [|q l]; [apply ends_ret|]. do 4 (apply ends_if; [apply ends_trouble|]). cbn [f_adjacent andb]. apply ends_ret. }
    intros _ _. apply ends_if; [|apply ends_ret]. apply ends_after. apply ends_if; [apply ends_ret|apply ends_trouble].
Qed.
(** The check of a serialised tuple always answers, whatever the bytes and the length. *)
Theorem C73_check_answers : forall m ptr len no_holes, bytes_mem m -> exists b, check_ro m ptr len no_holes = Returns b.
Proof.
  intros m ptr len nh Hm. unfold check_ro, ro_audit_ex. pose proof (ends_audit m ptr len Hm) as E.
  assert (E2 : ends (bindc (ro_audit m ptr len None) (fun info => if nh && negb (fst info =? 0) then trouble else ret tt))).
  { apply ends_bind; [exact E|]. intros info _. apply ends_if; discriminate. }
  unfold ends in E2. destruct (snd (bindc _ _)); eauto. congruence.
Qed.
Lemma from_ro_u16 i1 i2 m ptr size more l d : from_ro (u16 i1, u16 i2) m ptr size more l d = from_ro (i1, i2) m ptr size more l d.
Proof. unfold from_ro. cbn [fst snd]. unfold u16. rewrite !Z.mod_mod by (change (2 ^ 16) with 65536; lia). reflexivity. Qed.
Lemma estimate_ro_inv m ptr len more payload info n : bytes_mem m -> 0 <= more -> 0 <= payload -> snd (ro_audit m ptr len None) = Good info ->
  estimate_ro m ptr more payload 0 = Some n ->
  more <= 8191 /\ payload <= 262136 /\ 0 <= ro_index m ptr <= 8191 /\ 0 <= ro_payload_units m ptr <= 65533 /\
  n = 44 + 4 * Z.min 8191 (ro_index m ptr + more) + ceil4 (Z.min 262136 (4 * ro_payload_units m ptr + payload)).
Proof.
  intros Hm H1 H2 OK E. pose proof (acc_bounds m ptr len None info Hm OK) as (B1 & B2 & _).
  unfold estimate_ro in E. change max_fields with 8191 in E. change max_tuple_bytes_netto with 262136 in E.
  destruct (more >? 8191) eqn:E1; [discriminate|]. destruct (payload >? 262136) eqn:E2; [discriminate|]. unfold estimate in E. change max_fields with 8191 in E. change max_tuple_bytes_netto with 262136 in E. cbn [Z.gtb Z.compare] in E.
  destruct (_ || _); [discriminate|]. assert (Q : forall a b : Z, Some a = Some b -> b = a) by (intros a b Q; congruence). apply Q in E. clear Q.
  unfold pure_tuple_size in E. repeat split; lia.
Qed.
Lemma from_ro_made m ptr len more payload info n size d : bytes_mem m -> 0 <= more -> 0 <= payload -> snd (ro_audit m ptr len None) = Good info ->
  estimate_ro m ptr more payload 0 = Some n -> n <= size <= buffer_limit ->
  exists s, from_ro info m ptr size more no_layout d = Some s /\ create_from_buffer m ptr len size more payload None no_layout d = Some s /\
    cnt s = Z.to_nat (ro_index m ptr) /\ space4items s = Z.min more (8191 - ro_index m ptr) /\ tail s = pivot s + ro_payload_units m ptr /\
    (tail s + (payload + 3) / 4 <= 65534 -> payload <= space4data s).
Proof.
  intros Hm H1 H2 OK E Hs. destruct (estimate_ro_inv _ _ _ _ _ _ _ Hm H1 H2 OK E) as (B1 & B2 & B3 & B4 & ->). unfold buffer_limit in Hs. unfold ceil4 in Hs.
  assert (M : exists s, from_ro info m ptr size more no_layout d = Some s).
  { unfold from_ro, estimate. change max_fields with 8191. change max_tuple_bytes_netto with 262136. replace (more >? 8191) with false by lia.
    replace (size >? 2 * 262136) with false by lia. cbn [l_bytes no_layout]. change (0 >? 262136) with false.
    replace (4 * ro_payload_units m ptr >? 262136 - 0) with false by lia. replace (Z.min 8191 (ro_index m ptr + more) >? 8191) with false by lia. cbn [orb].
    match goal with |- context [if size <? ?x then _ else _] => replace (size <? x) with false by (unfold pure_tuple_size, ceil4; lia) end. eexists. reflexivity. }
  destruct M as (s & M). exists s. split; [exact M|]. split.
  { unfold create_from_buffer. rewrite OK. change (l_bytes no_layout) with 0. rewrite E. unfold ceil4. match goal with |- context [if size <? ?x then _ else _] => replace (size <? x) with false by lia end. exact M. }
  destruct (taken_parts m ptr info size more no_layout d s M) as (T1 & _). split; [exact T1|].
  pose proof (acc_sizes m ptr len None info size more no_layout d s Hm ltac:(lia) OK M) as (Z1 & Z2 & Z3 & Z4).
  split. { unfold space4items, head_space. rewrite Z1, T1. lia. }
  split; [exact Z2|]. intros Fit. unfold space4data, tail_space. rewrite Z3. lia.
Qed.
(** Asking for the size with a check, and then opening in a buffer of at least that size, always
    works: all the entries, the room asked for, and the tuple that create_from_buffer makes. *)
Theorem C73_two_calls : forall m ptr len more payload c0 n c buf size d, bytes_mem m -> 0 <= more -> 0 <= payload ->
  check_and_size_ex m ptr len more payload (Some c0) = Returns (n, Some c) -> c_err c = false -> buf <> 0 -> n <= size <= buffer_limit ->
  exists s, fetch_ex m ptr buf size more (Some c) d = Some s /\ create_from_buffer m ptr len size more payload None no_layout d = Some s /\
    cnt s = Z.to_nat (ro_index m ptr) /\ space4items s = Z.min more (8191 - ro_index m ptr) /\ tail s = pivot s + ro_payload_units m ptr /\
    (tail s + (payload + 3) / 4 <= 65534 -> payload <= space4data s).
Proof.
  intros m ptr len more payload c0 n c buf size d Hm H1 H2 E Ec Nb Hs. unfold check_and_size_ex in E.
  destruct (snd (ro_audit m ptr len None)) as [info| |] eqn:OK; [|injection E as _ <-; discriminate|discriminate].
  destruct (estimate_ro m ptr more payload 0) as [n0|] eqn:EN; [|injection E as _ <-; discriminate].
  assert (Q : n0 = n /\ c = mkC false true (u16 (fst info)) (u16 (snd info))) by (split; congruence). destruct Q as [<- ->].
  destruct (from_ro_made m ptr len more payload info n0 size d Hm H1 H2 OK EN Hs) as (s & S1 & S2). exists s. split; [|exact S2].
  unfold fetch_ex. cbn [c_err c_sign c_count c_volume orb negb]. replace (buf =? 0) with false by lia. rewrite from_ro_u16, <- surjective_pairing. exact S1.
Qed.
(** The size is refused exactly for bytes that the validator refuses and for too large a reserve,
    and a refusal is seen: size zero and the error set.  A given size can be had. *)
Theorem C73_size_or_error : forall m ptr len more payload c0, bytes_mem m -> 0 <= more -> 0 <= payload ->
  exists n c, check_and_size_ex m ptr len more payload (Some c0) = Returns (n, Some c) /\
    check_and_size m ptr len more payload true = Returns (n, c_err c) /\ c_sign c = negb (c_err c) /\
    (c_err c = true -> n = 0) /\ (c_err c = false -> 44 <= n <= buffer_limit) /\
    (c_err c = false <-> check_ro m ptr len false = Returns true /\ more <= max_fields /\ payload <= max_tuple_bytes_netto).
Proof.
  intros m ptr len more payload c0 Hm H1 H2. unfold check_and_size_ex, check_and_size, check_ro, ro_audit_ex. cbn [negb].
  pose proof (ends_audit m ptr len Hm) as A. unfold ends in A. destruct (ro_audit m ptr len None) as [t [info| |]] eqn:EA; cbn [snd bindc ret fst] in *; [|clear A|congruence].
  - cbn [andb snd after ret fst].
    assert (OK : snd (ro_audit m ptr len None) = Good info) by (rewrite EA; reflexivity). pose proof (acc_bounds m ptr len None info Hm OK) as (B1 & B2 & _).
    destruct (estimate_ro m ptr more payload 0) as [n|] eqn:EN.
    + destruct (estimate_ro_inv _ _ _ _ _ _ _ Hm H1 H2 OK EN) as (C1 & C2 & C3 & C4 & ->). exists (44 + 4 * Z.min 8191 (ro_index m ptr + more) + ceil4 (Z.min 262136 (4 * ro_payload_units m ptr + payload))). exists (mkC false true (u16 (fst info)) (u16 (snd info))).
      cbn [c_err c_sign]. change max_fields with 8191. change max_tuple_bytes_netto with 262136. split; [reflexivity|]. split; [reflexivity|]. split; [reflexivity|].
      split; [discriminate|]. split; [intros _; unfold ceil4, buffer_limit; lia|]. split; [intros _; auto|reflexivity].
    + exists 0. exists (mkC true false (c_count c0) (c_volume c0)). cbn [c_err c_sign]. split; [reflexivity|]. split; [reflexivity|]. split; [reflexivity|]. split; [reflexivity|]. split; [discriminate|].
      split; [discriminate|]. intros (_ & F1 & F2). exfalso. unfold estimate_ro, estimate in EN. change max_fields with 8191 in *. change max_tuple_bytes_netto with 262136 in *.
      replace (more >? 8191) with false in EN by lia. replace (payload >? 262136) with false in EN by lia. change (0 >? 262136) with false in EN.
      replace (Z.min 262136 (4 * ro_payload_units m ptr + payload) >? 262136 - 0) with false in EN by lia. replace (Z.min 8191 (ro_index m ptr + more) >? 8191) with false in EN by lia. discriminate.
  - exists 0. exists (mkC true false (c_count c0) (c_volume c0)). cbn [c_err c_sign]. split; [reflexivity|]. split; [reflexivity|]. split; [reflexivity|]. split; [reflexivity|]. split; [discriminate|].
    split; [discriminate|]. intros (F & _). discriminate.
Qed.
(** Without a place for the error the answer is SIZE_MAX, which is larger than any size that can be had. *)
Theorem C73_no_error_place : forall m ptr len more payload c0 n c, bytes_mem m -> 0 <= more -> 0 <= payload ->
  check_and_size_ex m ptr len more payload (Some c0) = Returns (n, c) ->
  check_and_size m ptr len more payload false = Returns (18446744073709551615, false) /\
  check_and_size_ex m ptr len more payload None = Returns (18446744073709551615, None) /\ n < 18446744073709551615.
Proof.
  intros m ptr len more payload c0 n c Hm H1 H2 E. destruct (C73_size_or_error m ptr len more payload c0 Hm H1 H2) as (n' & c' & E' & _ & _ & Z0 & Zn & _).
  rewrite E in E'. injection E' as <- ->. split; [reflexivity|]. split; [reflexivity|]. destruct (c_err c'); [rewrite Z0 by reflexivity; lia|]. specialize (Zn eq_refl). unfold buffer_limit in Zn. lia.
Qed.
(** Walking over the entries of an image: those of its index if the image is as long as it says, none
    at all otherwise. *)
Theorem C73_walk : forall m ptr len, bytes_mem m ->
  (len = 4 * ro_units m ptr -> 4 <= len -> begin_ro m ptr len = ptr + 4 /\ end_ro m ptr len = ptr + 4 + 4 * ro_index m ptr /\
     (is_empty_ro m ptr len = true <-> begin_ro m ptr len = end_ro m ptr len)) /\
  (len <> 4 * ro_units m ptr \/ len < 4 -> begin_ro m ptr len = 0 /\ end_ro m ptr len = 0 /\ is_empty_ro m ptr len = true).
Proof.
  intros m ptr len Hm. pose proof (ro_index_range m ptr Hm) as IR. unfold begin_ro, end_ro, is_empty_ro, is_hollow. split.
  - intros E1 E2. replace (len <? 4) with false by lia. replace (4 * ro_units m ptr =? len) with true by lia. cbn [orb negb]. split; [reflexivity|]. unfold ro_pivot. split; [lia|]. split; lia.
  - intros H. replace ((len <? 4) || negb (4 * ro_units m ptr =? len)) with true by lia. auto.
Qed.
(** The size without a check ends the process for too large a reserve, whatever the tuple. *)
Theorem C73_get_buffer_size_refuted : forall m ptr more payload, max_fields < more -> get_buffer_size m ptr more payload = Dies.
Proof. intros m ptr more payload H. unfold get_buffer_size, estimate_ro. replace (more >? max_fields) with true by lia. reflexivity. Qed.
Theorem C73_get_buffer_size_partial : forall m ptr len more payload, bytes_mem m -> 0 <= more <= max_fields -> 0 <= payload <= max_tuple_bytes_netto ->
  check_ro m ptr len false = Returns true -> exists n, get_buffer_size m ptr more payload = Returns n /\ check_and_size m ptr len more payload true = Returns (n, false).
Proof.
  intros m ptr len more payload Hm H1 H2 OK. destruct (C73_size_or_error m ptr len more payload (mkC false false 0 0) Hm) as (n & c & E1 & E2 & _ & _ & _ & [_ E3]); [lia|lia|].
  specialize (E3 (conj OK (conj (proj2 H1) (proj2 H2)))). rewrite E3 in E2. exists n. split; [|exact E2]. unfold check_and_size in E2. cbn [negb] in E2. rewrite OK in E2. unfold get_buffer_size.
  destruct (estimate_ro m ptr more payload 0); [|discriminate]. f_equal. congruence.
Qed.
(** The counters are not tied to the tuple they were computed for: those of a tuple with a hole make
    a modifiable tuple out of one without holes that fails its own check. *)
Definition no_holes_image : list Z := [3; 0; 8; 0] ++ [1; 0; 9; 0] ++ [1; 33; 0; 0].
Definition one_hole_image : list Z := [5; 0; 16; 0] ++ [3; 0; 9; 0] ++ [1; 0; 1; 0xf8] ++ [0; 0; 0; 0] ++ [1; 33; 0; 0].
Theorem C73_stale_counters_refuted : exists m1 m2 ptr len1 len2 n1 n2 c1 c2 d s, bytes_mem m1 /\ bytes_mem m2 /\
  check_and_size_ex m1 ptr len1 0 0 (Some (mkC false false 0 0)) = Returns (n1, Some c1) /\ c_err c1 = false /\
  check_and_size_ex m2 ptr len2 0 0 (Some (mkC false false 0 0)) = Returns (n2, Some c2) /\ c_err c2 = false /\
  fetch_ex m2 ptr 1 n2 0 (Some c1) d = Some s /\ check_rw 4096 s = Returns false.
Proof.
  exists (img one_hole_image 4096), (img no_holes_image 4096), 4096, 20, 12, 60, 52, (mkC false true 1 1), (mkC false true 0 0), zeros.
  exists (or_none (fetch_ex (img no_holes_image 4096) 4096 1 52 0 (Some (mkC false true 1 1)) zeros)).
  split; [apply img_bytes; repeat constructor; lia|]. split; [apply img_bytes; repeat constructor; lia|]. split; [vm_compute; reflexivity|]. split; [reflexivity|].
  split; [vm_compute; reflexivity|]. split; [reflexivity|]. split; [apply got_it; vm_compute; reflexivity|]. vm_compute. reflexivity.
Qed.
(** Tuples without a schema that calls lead to pass the checks, modifiable and serialised; the check that forbids holes passes
    exactly when there are none. *)
Theorem C73_built_passes : forall multi s A, lived multi s -> pp s = 0 -> Z.of_nat (cnt s) <= max_fields ->
  check_rw A s = Returns true /\
  (tail s - head s + 1 <= 65534 -> asis_ptr A s <> 0 ->
   check_ro (asis_mem A s) (asis_ptr A s) (asis_bytes s) false = Returns true /\
   check_ro (asis_mem A s) (asis_ptr A s) (asis_bytes s) true = Returns (jc s =? 0)).
Proof.
  intros multi s A Lv P Few. destruct (lived_inv multi s Lv) as [T _].
  assert (N : nslots s = 0%nat).
  { pose proof (c_soff _ (i_cfg _ _ _ _ _ _ (v_acc _ _ (t_inv _ T)))) as C. destruct (nslots s) as [|n]; [reflexivity|]. specialize (C 0%nat ltac:(lia)). lia. }
  assert (DS : distinct_slots s) by (intros i j Hi; lia). assert (SO : schema_of s None) by exact P.
  assert (Few' : Z.of_nat (cnt s) + Z.of_nat (nslots s) <= max_fields) by (rewrite N; lia).
  split; [unfold check_rw; rewrite (rw_accepted A s None T DS SO Few'); reflexivity|].
  intros Big NN. pose proof (asis_accepted A s None T DS SO Few' Big NN) as E. unfold check_ro, ro_audit_ex, bindc.
  destruct (ro_audit (asis_mem A s) (asis_ptr A s) (asis_bytes s) None) as [t v]. cbn [snd] in E. subst v. cbn [fst andb].
  split; [reflexivity|]. destruct (jc s =? 0); reflexivity.
Qed.
Definition holed : st := final (new_tuple 60 6) [OSet (fd g_u32 2) true (blob 1 7); OSet (fd g_u64 4) true (blob 2 8); ORemove (fd g_u32 2)].
Example C73_built_case : lived odd_multi holed /\ pp holed = 0 /\ cnt holed = 2%nat /\ jc holed = 1 /\ check_rw 4096 holed = Returns true /\
  check_ro (asis_mem 4096 holed) (asis_ptr 4096 holed) (asis_bytes holed) true = Returns false.
Proof. split; [apply l_reached; unfold holed; now_reach|]. vm_compute. repeat split. Qed.
(** and without valid counters nothing is opened *)
Theorem C73_refused : forall m ptr buf size more c d, fetch_ex m ptr buf size more None d = None /\
  (c_err c = true \/ c_sign c = false \/ buf = 0 -> fetch_ex m ptr buf size more (Some c) d = None) /\
  (forall len, buf = 0 -> fptu_fetch m ptr len buf size more ptr d = None).
Proof.
  intros m ptr buf size more c d. split; [reflexivity|]. split.
  - unfold fetch_ex. intros [-> | [-> | ->]]; [reflexivity|rewrite Bool.orb_true_r; reflexivity|destruct (_ || _); reflexivity].
  - intros len ->. reflexivity.
Qed.
(** No bytes at all are opened as an empty tuple with the room asked for. *)
Theorem C73_fetch_nothing : forall m ptr buf size more stub d, buf <> 0 -> stub <> 0 -> 0 <= more <= max_fields -> 44 + 4 * more <= size <= buffer_limit ->
  exists s, fptu_fetch m ptr 0 buf size more stub d = Some s /\ cnt s = 0%nat /\ jc s = 0 /\ jv s = 0 /\ nslots s = 0%nat /\
    pivot s = more /\ tail s = more /\ end_ s = Z.min 65534 ((size - 44) / 4) /\ TInv s.
Proof.
  intros m ptr buf size more stub d Nb Ns Hm Hs. unfold fptu_fetch. replace (buf =? 0) with false by lia. cbn [Z.eqb].
  assert (U : ro_units (stub_mem stub) stub = 1).
  { unfold ro_units, half, stub_mem. rewrite Z.eqb_refl. replace (stub + 1 =? stub) with false by lia. reflexivity. }
  assert (I : half (stub_mem stub) (stub + 2) = 0).
  { unfold half, stub_mem. replace (stub + 2 =? stub) with false by lia. replace (stub + 2 + 1 =? stub) with false by lia. reflexivity. }
  assert (N : ro_index (stub_mem stub) stub = 0) by (unfold ro_index; rewrite I; reflexivity).
  unfold fetch. assert (L : exists t, lite_checkup (stub_mem stub) stub 4 = (t, Good tt)).
  { unfold lite_checkup. replace (stub =? 0) with false by lia. change (4 <? 4) with false. change (4 >? max_tuple_bytes_netto) with false. change (negb (4 mod 4 =? 0)) with false.
    rewrite U, N. unfold ro_pivot, ro_end. rewrite U, N. change (negb (4 =? 4 * 1)) with false. change (0 >? max_fields) with false. replace (stub + 4 + 4 * 0 >? stub + 4 * 1) with false by lia.
    eexists. reflexivity. }
  destruct L as (t & ->). cbn [snd].
  unfold from_ro. rewrite N. unfold ro_payload_units. rewrite U, N. unfold buffer_limit in Hs. change max_fields with 8191 in *.
  replace (more >? 8191) with false by lia. change (2 * max_tuple_bytes_netto) with 524272. replace (size >? 524272) with false by lia.
  unfold estimate. change max_tuple_bytes_netto with 262136. change max_fields with 8191. cbn [l_bytes no_layout]. change (0 >? 262136) with false. replace (Z.min 8191 (0 + more)) with more by lia.
  change (4 * (1 - 1 - 0) >? 262136 - 0) with false. replace (more >? 8191) with false by lia. cbn [orb].
  replace (size <? pure_tuple_size + more * 4 + ceil4 (4 * (1 - 1 - 0))) with false by (change (ceil4 (4 * (1 - 1 - 0))) with 0; unfold pure_tuple_size; lia).
  match goal with |- exists s, Some ?x = Some s /\ _ => set (r := x) end.
  assert (EN : Z.min max_tuple_units_netto (Z.shiftr (u32 (size - pure_tuple_size)) 2) = Z.min 65534 ((size - 44) / 4)).
  { unfold max_tuple_units_netto, pure_tuple_size, u32. rewrite Z.shiftr_div_pow2 by lia. change (2 ^ 2) with 4. change (2 ^ 32) with 4294967296. rewrite Z.mod_small by lia. reflexivity. }
  exists r. split; [reflexivity|]. split; [reflexivity|]. split; [reflexivity|]. split; [reflexivity|]. split; [reflexivity|]. split; [reflexivity|].
  split; [cbn [tail r]; lia|]. split; [exact EN|].
  constructor.
  - constructor.
    + constructor; unfold r, base; cbn [pivot pp tail end_ cnt nslots soff idx pre jc jv l_units l_bytes no_layout]; try lia.
      * constructor; unfold base; cbn [pivot pp tail end_ cnt nslots soff l_n no_layout]; rewrite ?EN; change (l_units no_layout) with 0; try lia.
      * intros x. unfold GearBase.cov. cbn [cnt sumn nslots l_n no_layout]. change (l_units no_layout) with 0. unfold ind, zero_d. cbn. lia.
      * intros q. apply plen_nonneg.
      * change (l_units no_layout) with 0. cbn. lia.
      * reflexivity.
      * reflexivity.
      * change (u16 0) with 0. cbn. lia.
      * change (u16 0) with 0. cbn. lia.
    + intros i j (X & _). cbn in X. lia.
    + intros i (X & _). cbn in X. lia.
  - intros [k|j] Lr; [destruct Lr as [Lr _]|]; cbn in Lr; lia.
  - intros j Hj. cbn in Hj. lia.
Qed.
(** Allocation: within the limits the tuple is made with the room asked for, unless malloc fails;
    outside them the answer is NULL; no block is lost and the process goes on. *)
Theorem C73_alloc : forall items data heap d, 0 <= items -> 0 <= data ->
  (items <= max_fields -> data <= max_tuple_bytes_netto ->
     exists bytes, fptu_space items data = Some bytes /\ 44 + 4 * items + data <= bytes <= 44 + 4 * items + data + 3 /\
     (heap bytes = 0 -> fptu_alloc items data heap d = Returns (None, false)) /\
     (heap bytes <> 0 -> exists s, fptu_alloc items data heap d = Returns (Some s, false) /\
        cnt s = 0%nat /\ space4items s = items /\ junkspace s = 0 /\ (items + (data + 3) / 4 <= 65534 -> data <= space4data s /\ TInv s))) /\
  (max_fields < items \/ max_tuple_bytes_netto < data -> fptu_alloc items data heap d = Returns (None, false)).
Proof.
  intros items data heap d Hi Hd. split.
  - intros H1 H2. exists (44 + items * 4 + ceil4 (data + 0)).
    assert (E : fptu_space items data = Some (44 + items * 4 + ceil4 (data + 0))).
    { unfold fptu_space. rewrite (Z.min_l items), (Z.min_l data) by lia. apply estimate_some; lia. }
    split; [exact E|]. split; [unfold ceil4; lia|]. unfold fptu_alloc. rewrite E. replace ((items >? max_fields) || (data >? max_tuple_bytes_netto)) with false by lia.
    unfold fptu_init. split.
    + intros ->. reflexivity.
    + intros N. replace (heap (44 + items * 4 + ceil4 (data + 0)) =? 0) with false by lia. change max_fields with 8191 in *. change max_tuple_bytes_netto with 262136 in *.
      rewrite construct_some; [|change max_fields with 8191; lia|cbn; lia|cbn [l_bytes no_layout]; change (ceil4 0) with 0; unfold ceil4, buffer_limit; lia].
      eexists. split; [reflexivity|]. split; [reflexivity|]. split; [unfold space4items, head_space, fresh; cbn [pivot cnt]; lia|]. split; [reflexivity|].
      intros Fit. split; [unfold space4data, tail_space, fresh; cbn [tail end_]; change (l_units no_layout) with 0; unfold ceil4; lia|].
      apply fresh_TInv. constructor; change (l_units no_layout) with 0; cbn [l_n no_layout]; try lia. unfold ceil4. lia.
  - intros H. unfold fptu_alloc. replace ((items >? max_fields) || (data >? max_tuple_bytes_netto)) with true by lia. reflexivity.
Qed.
Example C73_cases :
  check_and_size_ex (img good_image 4096) 4096 40 4 20 (Some (mkC false false 0 0)) = Returns (0, Some (mkC true false 0 0)) /\
  check_and_size_ex (img one_hole_image 4096) 4096 20 4 20 (Some (mkC true false 9 9)) = Returns (44 + 24 + 28, Some (mkC false true 1 1)) /\
  match fetch_ex (img one_hole_image 4096) 4096 1 96 4 (Some (mkC false true 1 1)) zeros with
  | Some s => cnt s = 2%nat /\ space4items s = 4 /\ space4data s = 20 /\ field s (RL 1) = Some (9, [8449]) /\ check_rw 4096 s = Returns true
  | None => False
  end /\
  match fptu_alloc 3 10 (fun _ => 4096) zeros with Returns (Some s, false) => space4items s = 3 /\ space4data s = 12 | _ => False end /\
  match fptu_fetch (img [] 0) 0 0 1 100 5 8192 zeros with Some s => space4items s = 5 /\ space4data s = 36 | None => False end.
Proof. vm_compute. repeat split. Qed.
(** tuple_ro::make_from_buffer gives the tuple exactly when it is valid; with skip_validation it is
    given unchecked. *)
Theorem C73_make : forall m ptr bytes schema, bytes_mem m ->
  (make_from_buffer m ptr bytes schema false = Some ptr <-> exists info, snd (ro_audit m ptr bytes schema) = Good info) /\
  (make_from_buffer m ptr bytes schema false = None <-> ~ exists info, snd (ro_audit m ptr bytes schema) = Good info) /\
  make_from_buffer m ptr bytes schema true = Some (if (ptr =? 0) || (bytes <? 4) then 0 else ptr).
Proof.
  intros m ptr bytes schema Hm.
  assert (G : (exists info, snd (ro_audit m ptr bytes schema) = Good info) <-> make_from_buffer m ptr bytes schema false <> None).
  { unfold make_from_buffer, ro_audit_ex. destruct ((ptr =? 0) || (bytes <? 4)) eqn:E.
    - split; [|congruence]. intros (info & OK). unfold ro_audit in OK. apply bindc_good in OK as (u & L & _). destruct u. destruct (lite_checkup_good _ _ _ L) as (L1 & L2 & _). lia.
    - destruct (ro_audit m ptr bytes schema) as [t [info| |]]; cbn [bindc snd andb fst after ret]; split; intros H; try congruence; try (destruct H as (i & H); congruence). eauto. }
  assert (V : forall p, make_from_buffer m ptr bytes schema false = Some p -> p = ptr).
  { unfold make_from_buffer. intros p. destruct (_ || _); [discriminate|]. destruct (snd (ro_audit_ex m ptr bytes schema false)); congruence. }
  split; [|split].
  - rewrite G. split; [congruence|]. intros N. destruct (make_from_buffer m ptr bytes schema false) as [p|]; [|congruence]. rewrite (V p eq_refl). reflexivity.
  - rewrite G. destruct (make_from_buffer m ptr bytes schema false); split; congruence || (intros H; exfalso; apply H; discriminate).
  - unfold make_from_buffer. destruct (_ || _); reflexivity.
Qed.

(** ** C74 *)
(** the loose fields a tuple has *)
Definition loose_fields (s : st) : list nat := filter (fun k => liveb s (RL k)) (seq 0 (cnt s)).
Lemma all_holes s : Z.of_nat (cnt s) = sumn (cnt s) (hcount s) <-> forall k, ~ live s (RL k).
Proof.
  assert (B : forall k, 0 <= hcount s k <= 1) by (intros k; unfold hcount; destruct (is_hole (idx s k)); cbn; lia).
  assert (G : forall n, sumn n (hcount s) <= Z.of_nat n) by (induction n as [|n IH]; cbn [sumn]; [lia|]; specialize (B n); lia).
  assert (F : forall n, Z.of_nat n = sumn n (hcount s) <-> forall k, (k < n)%nat -> is_hole (idx s k) = true).
  { induction n as [|n IH]; [split; [lia|reflexivity]|]. cbn [sumn]. specialize (G n). pose proof (B n) as Bn. split.
    - intros E k Hk. assert (E1 : Z.of_nat n = sumn n (hcount s)) by lia. destruct (Nat.eq_dec k n) as [->|N]; [|apply IH; [exact E1|lia]].
      unfold hcount in *. destruct (is_hole (idx s n)); [reflexivity|cbn in *; lia].
    - intros H. assert (E1 : Z.of_nat n = sumn n (hcount s)) by (apply IH; intros; apply H; lia). unfold hcount at 2. rewrite (H n) by lia. cbn [Z.b2z]. lia. }
  rewrite F. split.
  - intros H k [K1 K2]. rewrite H in K2 by assumption. discriminate.
  - intros H k Hk. destruct (is_hole (idx s k)) eqn:E; [reflexivity|]. exfalso. apply (H k). split; assumption.
Qed.
Lemma loose_count_ok s : TInv s -> loose_count s = Z.of_nat (length (loose_fields s)).
Proof.
  intros T. pose proof (i_jc _ _ _ _ _ _ (v_acc _ _ (t_inv _ T))) as E. unfold loose_count, index_size, head_, head, loose_fields. replace (pivot s - (pivot s - Z.of_nat (cnt s)) - jc s) with (Z.of_nat (cnt s) - sumn (cnt s) (hcount s)) by lia.
  assert (G : forall n, (n <= cnt s)%nat -> Z.of_nat n - sumn n (hcount s) = Z.of_nat (length (filter (fun k => liveb s (RL k)) (seq 0 n)))).
  { induction n as [|n IH]; intros Hn; [reflexivity|]. rewrite seq_S, filter_app, app_length. cbn [sumn]. specialize (IH ltac:(lia)).
    change (filter (fun k => liveb s (RL k)) [(0 + n)%nat]) with (if liveb s (RL n) then [n] else []).
    assert (Q : liveb s (RL n) = negb (is_hole (idx s n))) by (cbn [liveb]; replace (Nat.ltb n (cnt s)) with true by (symmetry; apply Nat.ltb_lt; lia); reflexivity).
    rewrite Q. unfold hcount at 2. destruct (is_hole (idx s n)); cbn [negb length Z.b2z]; lia. }
  apply G. lia.
Qed.
Lemma empty_ok s : TInv s -> (empty_rw s = true <-> pp s = 0 /\ loose_fields s = []).
Proof.
  intros T. pose proof (v_acc _ _ (t_inv _ T)) as acc. pose proof (seen_cfg s T) as C. pose proof (loose_count_ok s T) as LC. unfold loose_count, index_size, head_, head in LC.
  assert (LF : loose_fields s = [] <-> Z.of_nat (length (loose_fields s)) = 0) by (destruct (loose_fields s); cbn [length]; split; intros; [reflexivity|reflexivity|discriminate|lia]).
  unfold empty_rw, tuple_empty, head_, head. split.
  - intros E. rewrite LF. unfold base in *. lia.
  - intros [P L]. apply LF in L. assert (tail s = pivot s); [|unfold base in *; lia].
    destruct (Z.eq_dec (tail s) (pivot s)) as [|N]; [assumption|exfalso]. assert (TB : base s < tail s) by (unfold base in *; lia).
    assert (AH : forall k, ~ live s (RL k)). { apply all_holes. rewrite (i_jc _ _ _ _ _ _ acc). lia. }
    pose proof (i_cov _ _ _ _ _ _ acc (tail s - 1)) as CV. unfold zero_d in CV. rewrite (ind_1 (base s) (tail s - base s) (tail s - 1)) in CV by lia. unfold GearBase.cov in CV.
    assert (Z0 : sumn (nslots s) (fun j => ind (raddr s (RP j)) (plen s (RP j)) (tail s - 1)) = 0).
    { apply sumn_zero. intros j Hj. pose proof (c_soff _ (i_cfg _ _ _ _ _ _ acc) j Hj). lia. }
    rewrite Z0 in CV.
    assert (Pick : forall n f, 0 < sumn n f -> exists k, (k < n)%nat /\ 0 < f k).
    { induction n as [|n IH]; intros f Hf; cbn [sumn] in Hf; [lia|]. destruct (Z.lt_ge_cases 0 (f n)); [exists n; split; [lia|assumption]|].
      destruct (IH f ltac:(lia)) as (k & K1 & K2). exists k. split; [lia|exact K2]. }
    destruct (Pick (cnt s) (fun k => ind (addr s k) (len s (plen s) k) (tail s - 1)) ltac:(lia)) as (k & K1 & K2).
    assert (HK : is_hole (idx s k) = true) by (destruct (is_hole (idx s k)) eqn:E; [reflexivity|exfalso; apply (AH k); split; assumption]).
    unfold len in K2. rewrite HK in K2. assert (NZ : nzh s k) by (split; [exact K1|split; [exact HK|unfold ind in K2; lia]]).
    pose proof (v_notail _ _ (t_inv _ T) k NZ) as NT. unfold hole_end, hole_begin in NT.
    assert (In1 : addr s k <= tail s - 1 < addr s k + hunits (idx s k)) by (unfold ind in K2; lia).
    pose proof (i_cov _ _ _ _ _ _ acc (addr s k + hunits (idx s k) - 1)) as CV2. unfold zero_d, GearBase.cov in CV2.
    pose proof (sumn_ge1 (cnt s) (fun i => ind (addr s i) (len s (plen s) i) (addr s k + hunits (idx s k) - 1)) k K1 (fun i _ => proj1 (ind_range _ _ _))) as S1.
    cbv beta in S1. unfold len at 1 in S1. rewrite HK in S1. rewrite ind_1 in S1 by lia.
    assert (S2 : 0 <= sumn (nslots s) (fun j => ind (raddr s (RP j)) (plen s (RP j)) (addr s k + hunits (idx s k) - 1))) by (apply sumn_nonneg; intros; apply ind_range).
    unfold ind at 3 in CV2. lia.
Qed.
(** The numbers a tuple gives about itself, for every state a history of calls, compactions and
    growth leads to. *)
Theorem C74_counts_partial : forall multi s A, lived multi s ->
  loose_count s = Z.of_nat (length (loose_fields s)) /\
  (empty_rw s = true <-> pp s = 0 /\ forall k, field s (RL k) = None) /\
  Z.of_nat (cnt s) = Z.of_nat (length (loose_fields s)) + jc s /\
  space4items s + loose_count s + jc s + (tail s - pivot s) + space4data s / 4 = end_ s /\
  (brutto_size s <= 262140 -> snd (take_noshrink A s) = brutto_size s).
Proof.
  intros multi s A L. destruct (lived_inv multi s L) as [T _]. pose proof (loose_count_ok s T) as LC. pose proof (seen_cfg s T) as C.
  split; [exact LC|]. split.
  { rewrite (empty_ok s T). assert (Q : loose_fields s = [] <-> forall k, field s (RL k) = None).
    { unfold loose_fields. split.
      - intros E k. unfold field. destruct (liveb s (RL k)) eqn:Lk; [exfalso|reflexivity].
        assert (I : In k (filter (fun k => liveb s (RL k)) (seq 0 (cnt s)))).
        { apply filter_In. split; [|exact Lk]. apply in_seq. cbn [liveb] in Lk. apply Bool.andb_true_iff in Lk as [Lk _]. apply Nat.ltb_lt in Lk. lia. }
        rewrite E in I. destruct I.
      - intros H. destruct (filter _ _) as [|k r] eqn:E; [reflexivity|exfalso]. assert (I : In k (k :: r)) by (left; reflexivity). rewrite <- E in I. apply filter_In in I as [_ I].
        specialize (H k). unfold field in H. rewrite I in H. discriminate. }
    rewrite Q. reflexivity. }
  unfold loose_count, index_size, head_, head in *. split; [lia|]. split; [unfold space4items, space4data, head_space, tail_space; lia|].
  intros B. unfold take_noshrink, asis_bytes, brutto_size, head_, head, u16, base in *. cbn [snd]. change (2 ^ 16) with 65536. rewrite Z.mod_small by lia. reflexivity.
Qed.
(** the payload counted by payload_size() is the preplaced part, what the fields hold outside of the
    index, and the holes; with the index and the free room it makes up the capacity *)
Definition outside (s : st) (r : ref) : Z :=
  if match r with RL _ => is_inplaced_genus (rgenus s r) | RP _ => false end then 0 else Z.of_nat (length (value s r)).
Lemma outside_ok s r : TInv s -> outside s r = plen s r.
Proof.
  intros T. pose proof (i_len _ _ _ _ _ _ (v_acc _ _ (t_inv _ T)) r) as P. unfold outside, value.
  destruct (match r with RL _ => is_inplaced_genus (rgenus s r) | RP _ => false end) eqn:I.
  - destruct r as [k|j]; [|discriminate]. unfold plen. revert I. unfold is_inplaced_genus. generalize (rgenus s (RL k)). intros g G.
    apply Bool.orb_true_iff in G as [G|G]; [apply Bool.orb_true_iff in G as [G|G]; [apply Bool.orb_true_iff in G as [G|G]|]|]; apply Z.eqb_eq in G; subst g; reflexivity.
  - unfold read_units. rewrite map_length, seq_length. lia.
Qed.
Theorem C74_payload : forall multi s, lived multi s ->
  payload_size_units s = pp s + lsum (fun k => outside s (RL k)) (loose_fields s) + lsum (fun j => outside s (RP j)) (seq 0 (nslots s)) + jv s /\
  capacity s = 4 * (space4items s + loose_count s + jc s + payload_size_units s) + space4data s.
Proof.
  intros multi s L. destruct (lived_inv multi s L) as [T _]. pose proof (v_acc _ _ (t_inv _ T)) as A. split.
  - rewrite (lsum_ext _ (fun k => plen s (RL k)) (loose_fields s)) by (intros; apply outside_ok; exact T).
    rewrite (lsum_ext _ (fun j => plen s (RP j)) (seq 0 (nslots s))) by (intros; apply outside_ok; exact T). rewrite lsum_seq.
    pose proof (i_tot _ _ _ _ _ _ A) as E. pose proof (i_jv _ _ _ _ _ _ A) as V. unfold total in E.
    rewrite (sumn_ext (cnt s) (len s (plen s)) (fun k => (if is_hole (idx s k) then 0 else plen s (RL k)) + hvol s k)) in E
      by (intros k _; unfold len, hvol; destruct (is_hole (idx s k)); lia).
    rewrite sumn_split in E.
    assert (Q : lsum (fun k => plen s (RL k)) (loose_fields s) = sumn (cnt s) (fun k => if is_hole (idx s k) then 0 else plen s (RL k))).
    { unfold loose_fields. rewrite <- lsum_seq. rewrite <- (lsum_filter (fun k => if is_hole (idx s k) then 0 else plen s (RL k)) (fun k => liveb s (RL k))).
      - apply lsum_ext. intros k Hk. apply filter_In in Hk as [_ Hk]. cbn [liveb] in Hk. destruct (is_hole (idx s k)); [rewrite andb_false_r in Hk; discriminate|reflexivity].
      - intros k Hk F. apply in_seq in Hk. cbn [liveb] in F. replace (Nat.ltb k (cnt s)) with true in F by (symmetry; apply Nat.ltb_lt; lia). destruct (is_hole (idx s k)); [reflexivity|discriminate]. }
    unfold payload_size_units. unfold base in E. lia.
  - unfold capacity, payload_size_units, loose_count, index_size, head_, space4items, space4data, head_space, tail_space, head. lia.
Qed.
Example C74_payload_case : lived odd_multi before9 /\ payload_size_units before9 = 14 /\ jv before9 = 2 /\
  lsum (fun k => outside before9 (RL k)) (loose_fields before9) = 7 /\ outside before9 (RP 0) + pp before9 = 5 /\ capacity before9 = 160.
Proof. split; [apply l_reached; now_reach|]. vm_compute. repeat split. Qed.
(** what compaction gives back is junkspace *)
Theorem C74_junk_partial : forall multi s srt, lived multi s -> settled s -> sorter c_off srt ->
  junkspace s = brutto_size s - brutto_size (compactify srt s) /\ junkspace (compactify srt s) = 0.
Proof.
  intros multi s srt L [S1 S2] SR. destruct (lived_inv multi s L) as [T _]. pose proof (compactify_ok s srt T SR S1 S2) as K.
  unfold junkspace, brutto_size, head_. rewrite (k_jc _ _ K), (k_jv _ _ K), (k_cnt _ _ K), (k_tail _ _ K), (k_pivot _ _ K), (kept_length s (plen s) (v_acc _ _ (t_inv _ T))). split; lia.
Qed.
(** netto_size() mixes bytes and units: with any junk it is larger than what is left after
    compaction by three quarters of the junk. *)
Theorem C74_netto_refuted : forall multi s srt, lived multi s -> settled s -> sorter c_off srt -> jc s <> 0 ->
  brutto_size (compactify srt s) < netto_size s /\ netto_size s = brutto_size (compactify srt s) + 3 * (jc s + jv s).
Proof.
  intros multi s srt L S SR J. destruct (C74_junk_partial multi s srt L S SR) as [E _]. destruct (lived_inv multi s L) as [T _].
  pose proof (i_jcr _ _ _ _ _ _ (v_acc _ _ (t_inv _ T))). pose proof (i_jvr _ _ _ _ _ _ (v_acc _ _ (t_inv _ T))). unfold junkspace, netto_size, junk_units in *. lia.
Qed.
Theorem C74_netto_partial : forall s, jc s = 0 -> jv s = 0 -> netto_size s = brutto_size s.
Proof. intros s H1 H2. unfold netto_size, junk_units. lia. Qed.
Example C74_cases : lived odd_multi before9 /\ settled before9 /\ jc before9 = 1 /\ netto_size before9 = 73 /\ brutto_size before9 = 76 /\
  brutto_size (compactify srt_chunks before9) = 64 /\ junkspace before9 = 12 /\ loose_fields before9 = [0; 2; 3]%nat /\ empty_rw before9 = false /\
  empty_rw (new_tuple 16 6) = true.
Proof.
  split; [apply l_reached; now_reach|]. split; [apply settled_dec; vm_compute; reflexivity|]. vm_compute. repeat split; reflexivity.
Qed.
(** What a reader is told about a written tuple: fptu_is_empty_ro looks only at the number of entries,
    tuple_ro::empty() only at the number of units. *)
Theorem C74_read_partial : forall multi s A, lived multi s -> Z.of_nat (cnt s) <= max_fields -> brutto_size s <= 262136 ->
  (is_empty_ro (asis_mem A s) (asis_ptr A s) (asis_bytes s) = true <-> cnt s = 0%nat) /\
  (empty_ro (asis_mem A s) (asis_ptr A s) = true <-> cnt s = 0%nat /\ pp s = 0 /\ tail s = pivot s) /\
  (empty_rw s = true -> jc s = 0 -> empty_ro (asis_mem A s) (asis_ptr A s) = true) /\
  begin_ro (asis_mem A s) (asis_ptr A s) (asis_bytes s) = asis_ptr A s + 4 /\
  end_ro (asis_mem A s) (asis_ptr A s) (asis_bytes s) = A + 4 * pivot s.
Proof.
  intros multi s A L Few B. destruct (lived_inv multi s L) as [T _].
  assert (Big : tail s - head s + 1 <= 65535) by (unfold brutto_size, head_ in B; unfold head; lia). pose proof (seen_cfg s T) as C.
  assert (H1 : is_hollow (asis_mem A s) (asis_ptr A s) (asis_bytes s) = false).
  { unfold is_hollow. rewrite (asis_units A s T Few Big), (asis_size A s T Big), Z.eqb_refl. unfold head, base in *. lia. }
  unfold is_empty_ro, begin_ro, end_ro, empty_ro. rewrite H1, (asis_units A s T Few Big), (asis_index A s T Few Big), (asis_pivot A s T Few Big).
  split; [lia|]. split; [unfold head, base in *; split; [intros ?; repeat split; lia|lia]|]. split; [|auto].
  intros E J. apply (empty_ok s T) in E as [E1 E2]. pose proof (loose_count_ok s T) as LC. rewrite E2 in LC. change (Z.of_nat (length (@nil nat))) with 0 in LC. unfold loose_count, index_size, head_ in LC.
  pose proof (v_acc _ _ (t_inv _ T)) as I. pose proof (i_tot _ _ _ _ _ _ I) as Tot. unfold total in Tot.
  assert (Cn : cnt s = 0%nat) by (unfold head in LC; lia). assert (Nn : nslots s = 0%nat).
  { destruct (nslots s) as [|n] eqn:En; [reflexivity|exfalso]. pose proof (c_soff _ (i_cfg _ _ _ _ _ _ I) 0%nat ltac:(lia)). lia. }
  rewrite Cn, Nn in Tot. cbn [sumn] in Tot. unfold head, base in *. lia.
Qed.
(** The two disagree: a tuple with nothing but a preplaced value is called empty by fptu_is_empty_ro,
    though the value can be read. *)
Theorem C74_is_empty_refuted : exists s, lived odd_multi s /\ get_slot s 0 = Some (pay (vbin 4 6)) /\ empty_rw s = false /\
  empty_ro (asis_mem 4096 s) (asis_ptr 4096 s) = false /\ is_empty_ro (asis_mem 4096 s) (asis_ptr 4096 s) (asis_bytes s) = true.
Proof.
  exists (final (new_tuple1 20 4) [OSlot 0 true (vbin 4 6)]). split; [apply l_reached; now_reach|]. vm_compute. repeat split; reflexivity.
Qed.

Print Assumptions C73_check_answers.
Print Assumptions C73_two_calls.
Print Assumptions C73_size_or_error.
Print Assumptions C73_no_error_place.
Print Assumptions C73_walk.
Print Assumptions C73_get_buffer_size_refuted.
Print Assumptions C73_get_buffer_size_partial.
Print Assumptions C73_stale_counters_refuted.
Print Assumptions C73_built_passes.
Print Assumptions C73_refused.
Print Assumptions C73_fetch_nothing.
Print Assumptions C73_alloc.
Print Assumptions C73_make.
Print Assumptions C74_counts_partial.
Print Assumptions C74_junk_partial.
Print Assumptions C74_netto_refuted.
Print Assumptions C74_payload.
Print Assumptions C74_netto_partial.
Print Assumptions C74_read_partial.
Print Assumptions C74_is_empty_refuted.

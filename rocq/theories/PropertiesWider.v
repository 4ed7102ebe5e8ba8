(** * PropertiesWider: C94, the estimate made from a modifiable tuple. *)
From Coq Require Import List.
From Verif Require Import Base Tag TagProofs Codec Gear GearBase GearSearch GearProofs GearAlloc GearRealloc Tuple TupleProofs TupleSteps TupleView TupleOps TupleMore
  TupleHist TupleFacts PropertiesTuple Hippeus Scan Audit Image ImageProofs PropertiesImage GearOpt GearOptProofs PropertiesOpt Growth GrowthProofs PropertiesGrowth PolicyProofs Scales PropertiesScales Wider.
From Coq Require Import ZifyBool ZifyNat Permutation.
Ltac Zify.zify_post_hook ::= Z.div_mod_to_equations.

(** ** C94 *)
Lemma u64_id x : 0 <= x < 2 ^ 64 -> u64 x = x.
Proof. intros H. unfold u64. apply Z.mod_small. exact H. Qed.
(** the space that a tuple of the items and bytes of [s] and [mi], [mp] more takes *)
Definition least (s : st) (mi mp : Z) : Z := 44 + 4 * (Z.of_nat (cnt s) + mi) + ceil4 (4 * (tail s - pivot s) + mp).
(** Without a wrap the answer is the space for the items and the bytes, and the preplaced bytes once more;
    there is an answer exactly when both counts are within the limits. *)
Theorem C94_exact_partial : forall multi s l mi mp n, lived multi s -> layout_of s l -> 0 <= mi -> 0 <= mp ->
  Z.of_nat (cnt s) + mi < 2 ^ 64 -> 4 * (tail s - pivot s) + mp < 2 ^ 64 ->
  (estimate_more s mi mp (l_bytes l) = Some n <->
   Z.of_nat (cnt s) + mi <= max_fields /\ 4 * (tail s - pivot s) + mp + l_bytes l <= max_tuple_bytes_netto /\
   n = 44 + 4 * (Z.of_nat (cnt s) + mi) + ceil4 (4 * (tail s - pivot s) + mp + l_bytes l)).
Proof.
  intros multi s l mi mp n Lv LO Hi Hp Wi Wp. destruct (lived_inv multi s Lv) as [T _]. pose proof (seen_cfg s T) as C. destruct LO as (L1 & _). unfold base in *.
  unfold estimate_more, index_size, payload_size_units, head_. replace (pivot s - (pivot s - Z.of_nat (cnt s)) + mi) with (Z.of_nat (cnt s) + mi) by lia.
  rewrite !u64_id by lia. split.
  - intros E. apply estimate_inv in E. destruct E as (E1 & E2 & E3 & ->). repeat split; try lia.
  - intros (E1 & E2 & ->). rewrite estimate_some by lia. f_equal. lia.
Qed.
(** The preplaced bytes are counted twice; without a schema the answer is exact. *)
Theorem C94_excess_partial : forall multi s l mi mp n, lived multi s -> layout_of s l -> 0 <= mi -> 0 <= mp ->
  Z.of_nat (cnt s) + mi < 2 ^ 64 -> 4 * (tail s - pivot s) + mp < 2 ^ 64 -> estimate_more s mi mp (l_bytes l) = Some n ->
  least s mi mp <= n <= least s mi mp + ceil4 (l_bytes l) /\ l_bytes l - 3 <= n - least s mi mp.
Proof.
  intros multi s l mi mp n Lv LO Hi Hp Wi Wp E. apply (C94_exact_partial multi s l mi mp n Lv LO Hi Hp Wi Wp) in E. destruct E as (_ & _ & ->).
  destruct LO as (L1 & _). unfold least, ceil4. lia.
Qed.
Lemma copy_with A s l mi mp n d : TInv s -> distinct_slots s -> layout_of s l -> 0 <= mi -> 0 <= mp ->
  Z.of_nat (cnt s) + mi <= max_fields -> 4 * (tail s - pivot s) + mp + l_bytes l <= max_tuple_bytes_netto ->
  Z.of_nat (cnt s) + mi + (4 * (tail s - pivot s) + mp + 3) / 4 <= 65534 -> least s mi mp <= n <= buffer_limit ->
  exists s', create_copy A s n mi mp l d = Some s' /\ TInv s' /\ moved s s' (Z.of_nat (cnt s) + mi - pivot s) /\ head_space s' = mi /\ mp <= 4 * tail_space s'.
Proof.
  intros T DS LO Hi Hp Ki Kp Fit Sz. pose proof (seen_cfg s T) as C. assert (Few : Z.of_nat (cnt s) <= max_fields) by lia.
  assert (Big : tail s - head s + 1 <= 65535) by (unfold head, base in *; lia). pose proof (proj1 LO) as L1. unfold base in *.
  change max_fields with 8191 in *. change max_tuple_bytes_netto with 262136 in *. unfold buffer_limit in Sz.
  set (borrow := fun x : Z => if x <=? n then n else x).
  assert (B : lends borrow) by (intros x Hx; unfold borrow, buffer_limit in *; destruct (Z.leb_spec x n); lia).
  assert (W : whole s mp = 4 * (tail s - pivot s) + mp) by (unfold whole; change max_tuple_bytes_netto with 262136; lia).
  assert (Rs : reserve s mi = Z.of_nat (cnt s) + mi) by (unfold reserve; change max_fields with 8191; lia).
  assert (Q : copy_sized borrow A s mi mp l d = create_copy A s n mi mp l d).
  { unfold copy_sized. assert (Es : estimate_ro (asis_mem A s) (asis_ptr A s) mi mp (l_bytes l) = Some (least s mi mp)).
    { unfold estimate_ro. rewrite (asis_index A s T Few Big), (asis_payload A s T Few Big). change max_fields with 8191. change max_tuple_bytes_netto with 262136.
      replace (mi >? 8191) with false by lia. replace (mp >? 262136) with false by lia. unfold estimate. change max_fields with 8191. change max_tuple_bytes_netto with 262136.
      replace (l_bytes l >? 262136) with false by lia. replace (Z.min 262136 (4 * (tail s - pivot s) + mp)) with (4 * (tail s - pivot s) + mp) by lia.
      replace (Z.min 8191 (Z.of_nat (cnt s) + mi)) with (Z.of_nat (cnt s) + mi) by lia.
      replace (4 * (tail s - pivot s) + mp >? 262136 - l_bytes l) with false by lia. replace (Z.of_nat (cnt s) + mi >? 8191) with false by lia. cbn [orb].
      f_equal. unfold least, pure_tuple_size. lia. }
    rewrite Es. unfold borrow. replace (least s mi mp <=? n) with true by lia. reflexivity. }
  destruct (proj2 (sized_exact borrow A s l d B T Few LO mi mp ltac:(change max_fields with 8191; lia) ltac:(change max_tuple_bytes_netto with 262136; lia))) as [s' E].
  { rewrite W. change max_tuple_bytes_netto with 262136. lia. }
  destruct (sized_room borrow A s l d B T Few LO mi mp ltac:(change max_fields with 8191; lia) ltac:(change max_tuple_bytes_netto with 262136; lia) s' DS E) as (R1 & R2 & R3 & R4 & R5 & R6).
  rewrite Rs, ?W in *. exists s'. split; [congruence|]. split; [apply R6; lia|]. split; [exact R5|]. unfold head_space, tail_space. rewrite R1, R2, R3. lia.
Qed.
(** The answer is enough.  A copy of the tuple into a buffer of that size, or larger, has the same fields and the asked
    room: every sequence of additions within it goes through.  For tuples without holes whose total stays below
    the largest number of units; a tuple with holes gets the same copy, holes included. *)
Theorem C94_enough_partial : forall multi s A l mi mp n size d, lived multi s -> distinct_slots s -> layout_of s l -> 0 <= mi -> 0 <= mp ->
  Z.of_nat (cnt s) + mi < 2 ^ 64 -> 4 * (tail s - pivot s) + mp < 2 ^ 64 -> estimate_more s mi mp (l_bytes l) = Some n -> n <= size <= buffer_limit ->
  Z.of_nat (cnt s) + mi + (4 * (tail s - pivot s) + mp + 3) / 4 <= 65534 ->
  exists s', create_copy A s size mi mp l d = Some s' /\ TInv s' /\ (forall r, field s' r = as_u32 (field s r)) /\
    head_space s' = mi /\ mp <= 4 * tail_space s' /\
    (jc s = 0 -> jv s = 0 -> forall ops, Forall (valid_new multi) ops -> forallb adding ops = true -> NoDup (set_descs ops) ->
      (forall desc, In desc (set_descs ops) -> view s desc = []) -> Z.of_nat (length ops) <= mi -> 4 * sum_units ops <= mp ->
      exists s2, run asis s' ops = Some (map (fun _ => true) ops, s2) /\ cnt s2 = (cnt s + length ops)%nat /\ TInv s2 /\
        forall k, single_key multi s' k -> get s2 k = last_write k (get s' k) (combine ops (map (fun _ => true) ops))).
Proof.
  intros multi s A l mi mp n size d Lv DS LO Hi Hp Wi Wp E Sz Fit. destruct (lived_inv multi s Lv) as [T U].
  pose proof (C94_excess_partial multi s l mi mp n Lv LO Hi Hp Wi Wp E) as X.
  apply (C94_exact_partial multi s l mi mp n Lv LO Hi Hp Wi Wp) in E. destruct E as (E1 & E2 & En).
  destruct (copy_with A s l mi mp size d T DS LO Hi Hp E1 E2 Fit ltac:(lia)) as (s' & Ec & T' & MV & H1 & H2).
  exists s'. split; [exact Ec|]. split; [exact T'|]. split; [intros r; apply (mv_field s s' _ MV T)|]. split; [exact H1|]. split; [exact H2|].
  intros J Jv ops V Ad ND Fr Len Sum. pose proof (moved_alike multi s s' _ MV T T') as Al.
  destruct (additions_run multi ops s' T' (a_uniq _ _ _ Al U)) as (s2 & Ca & R & R1 & _); auto; try lia.
  { rewrite (m_jc _ _ _ MV). exact J. } { rewrite (m_jv _ _ _ MV). exact Jv. }
  { intros desc I. assert (D : real_desc desc) by (unfold set_descs in I; apply in_flat_map in I; destruct I as (o & Io & I); pose proof (proj1 (Forall_forall _ _) V o Io) as Vo; destruct o; cbn in I; try contradiction; destruct I as [<-|[]]; apply Vo).
    apply lookup_view_nil; [exact D|]. pose proof (a_view _ _ _ Al desc D) as Q. rewrite (Fr desc I) in Q. destruct (view s' desc); [reflexivity|discriminate]. }
  exists s2. split; [exact R|]. split; [rewrite R1, (m_cnt _ _ _ MV); reflexivity|].
  destruct (history multi ops s' T' (a_uniq _ _ _ Al U) Ca) as (outs & s3 & R' & _ & T2 & _ & _ & G & _). rewrite R in R'.
  assert (Q : s3 = s2 /\ outs = map (fun _ => true) ops) by (split; congruence). destruct Q as [-> ->]. split; [exact T2|exact G].
Qed.
(** Less than the exact space is never enough, and that much always is. *)
Theorem C94_least : forall multi s A l mi mp n d, lived multi s -> distinct_slots s -> layout_of s l -> 0 <= mi -> 0 <= mp ->
  Z.of_nat (cnt s) + mi <= max_fields -> 4 * (tail s - pivot s) + mp + l_bytes l <= max_tuple_bytes_netto ->
  Z.of_nat (cnt s) + mi + (4 * (tail s - pivot s) + mp + 3) / 4 <= 65534 -> n <= buffer_limit ->
  ((exists s', create_copy A s n mi mp l d = Some s') <-> least s mi mp <= n).
Proof.
  intros multi s A l mi mp n d Lv DS LO Hi Hp Ki Kp Fit Sz. destruct (lived_inv multi s Lv) as [T U]. split.
  - intros [s' E]. pose proof (seen_cfg s T) as C. assert (Few : Z.of_nat (cnt s) <= max_fields) by lia.
    assert (Big : tail s - head s + 1 <= 65535) by (unfold head, base in *; lia). pose proof (proj1 LO) as L1. unfold base in *.
    unfold create_copy, estimate_ro in E. rewrite (asis_index A s T Few Big), (asis_payload A s T Few Big) in E.
    destruct (mi >? max_fields); [discriminate|]. destruct (mp >? max_tuple_bytes_netto); [discriminate|]. unfold estimate in E at 1.
    destruct (l_bytes l >? max_tuple_bytes_netto); [discriminate|]. destruct (_ || _); [discriminate|].
    destruct (Z.ltb_spec n (pure_tuple_size + Z.min max_fields (Z.of_nat (cnt s) + mi) * 4 + ceil4 (Z.min max_tuple_bytes_netto (4 * (tail s - pivot s) + mp)))) as [Lt|Ge]; [discriminate|].
    unfold least, pure_tuple_size in *. replace (Z.min max_fields (Z.of_nat (cnt s) + mi)) with (Z.of_nat (cnt s) + mi) in Ge by lia.
    replace (Z.min max_tuple_bytes_netto (4 * (tail s - pivot s) + mp)) with (4 * (tail s - pivot s) + mp) in Ge by lia. lia.
  - intros H. destruct (copy_with A s l mi mp n d T DS LO Hi Hp Ki Kp Fit ltac:(lia)) as (s' & E & _). exists s'. exact E.
Qed.
(** The sums wrap.  Asked about 2^64 - k more items, for any k up to the number present, a tuple without a schema
    answers with less than its own contents take, and no copy is made in that much. *)
Theorem C94_wrap_refuted : forall multi s A l k d, lived multi s -> distinct_slots s -> layout_of s l -> l_bytes l = 0 -> 1 <= k <= Z.of_nat (cnt s) ->
  Z.of_nat (cnt s) <= max_fields -> 4 * (tail s - pivot s) <= max_tuple_bytes_netto ->
  exists n, estimate_more s (2 ^ 64 - k) 0 (l_bytes l) = Some n /\ n = least s 0 0 - 4 * k /\ create_copy A s n 0 0 l d = None.
Proof.
  intros multi s A l k d Lv DS LO L0 K Few Hb. destruct (lived_inv multi s Lv) as [T U]. pose proof (seen_cfg s T) as C. unfold base in *.
  exists (least s 0 0 - 4 * k). split; [|split; [reflexivity|]].
  - unfold estimate_more, index_size, payload_size_units, head_. rewrite (u64_id (4 * (tail s - pivot s) + 0)) by (change (2 ^ 64) with 18446744073709551616; change max_tuple_bytes_netto with 262136 in *; lia).
    replace (u64 (pivot s - (pivot s - Z.of_nat (cnt s)) + (2 ^ 64 - k))) with (Z.of_nat (cnt s) - k).
    2: { unfold u64. change (2 ^ 64) with 18446744073709551616. change max_fields with 8191 in *. lia. }
    rewrite L0. rewrite estimate_some by lia. f_equal. unfold least. rewrite !Z.add_0_r. lia.
  - destruct (create_copy A s (least s 0 0 - 4 * k) 0 0 l d) as [s'|] eqn:E; [|reflexivity]. exfalso.
    assert (H : least s 0 0 <= least s 0 0 - 4 * k); [|lia].
    assert (Few' : Z.of_nat (cnt s) <= max_fields) by lia. assert (Big : tail s - head s + 1 <= 65535) by (unfold head, base in *; lia).
    unfold create_copy, estimate_ro in E. rewrite (asis_index A s T Few' Big), (asis_payload A s T Few' Big) in E. rewrite !Z.add_0_r in E.
    destruct (0 >? max_fields); [discriminate|]. destruct (0 >? max_tuple_bytes_netto); [discriminate|]. unfold estimate in E at 1.
    destruct (l_bytes l >? max_tuple_bytes_netto); [discriminate|]. destruct (_ || _); [discriminate|].
    match type of E with context [if ?a <? ?b then _ else _] => destruct (Z.ltb_spec a b) as [Lt|Ge]; [discriminate|] end.
    unfold least, pure_tuple_size in *. rewrite !Z.add_0_r in *.
    replace (Z.min max_fields (Z.of_nat (cnt s))) with (Z.of_nat (cnt s)) in Ge by lia.
    replace (Z.min max_tuple_bytes_netto (4 * (tail s - pivot s))) with (4 * (tail s - pivot s)) in Ge by lia. lia.
Qed.
(** The question is refused when the items would pass the limit, though copying with the same numbers is not. *)
Theorem C94_refused_refuted : forall multi s A l mi d, lived multi s -> layout_of s l -> max_fields - Z.of_nat (cnt s) < mi <= max_fields ->
  Z.of_nat (cnt s) <= max_fields -> 4 * (tail s - pivot s) + l_bytes l <= max_tuple_bytes_netto ->
  estimate_more s mi 0 (l_bytes l) = None /\ exists s', create_copy A s buffer_limit mi 0 l d = Some s'.
Proof.
  intros multi s A l mi d Lv LO Hm Few Hb. destruct (lived_inv multi s Lv) as [T U]. pose proof (seen_cfg s T) as C. pose proof (proj1 LO) as L1. unfold base in *. split.
  - destruct (estimate_more s mi 0 (l_bytes l)) as [n|] eqn:E; [|reflexivity]. exfalso.
    apply (C94_exact_partial multi s l mi 0 n Lv LO) in E; change (2 ^ 64) with 18446744073709551616; change max_fields with 8191 in *; change max_tuple_bytes_netto with 262136 in *; lia.
  - set (borrow := fun _ : Z => buffer_limit).
    assert (B : lends borrow) by (intros x Hx; unfold borrow; lia).
    assert (Hi : 0 <= mi <= max_fields) by (change max_fields with 8191 in *; lia).
    destruct (proj2 (sized_exact borrow A s l d B T Few LO mi 0 Hi ltac:(change max_tuple_bytes_netto with 262136; lia))) as [s' E].
    { unfold whole. lia. }
    unfold copy_sized in E. destruct (estimate_ro _ _ _ _ _) as [need|]; [|discriminate]. exists s'. exact E.
Qed.
(** Near the largest number of units the answer promises room that no buffer has: the count of units of a tuple,
    index included, is cut off at 65534. *)
Theorem C94_largest_refuted : forall multi s A l mi mp size d, lived multi s -> distinct_slots s -> layout_of s l -> 0 <= mi -> 0 <= mp ->
  Z.of_nat (cnt s) + mi <= max_fields -> 4 * (tail s - pivot s) + mp + l_bytes l <= max_tuple_bytes_netto ->
  65534 < Z.of_nat (cnt s) + mi + (4 * (tail s - pivot s) + mp) / 4 -> size <= buffer_limit ->
  (exists n, estimate_more s mi mp (l_bytes l) = Some n) /\
  forall s', create_copy A s size mi mp l d = Some s' -> head_space s' = mi /\ 4 * tail_space s' < mp.
Proof.
  intros multi s A l mi mp size d Lv DS LO Hi Hp Ki Kp Fit Sz. destruct (lived_inv multi s Lv) as [T U]. pose proof (seen_cfg s T) as C. pose proof (proj1 LO) as L1. unfold base in *.
  split. { eexists. apply (C94_exact_partial multi s l mi mp _ Lv LO Hi Hp). 3: { split; [exact Ki|]. split; [exact Kp|reflexivity]. }
    all: change (2 ^ 64) with 18446744073709551616; change max_fields with 8191 in *; change max_tuple_bytes_netto with 262136 in *; lia. }
  intros s' E. assert (Few : Z.of_nat (cnt s) <= max_fields) by lia. assert (Big : tail s - head s + 1 <= 65535) by (unfold head; lia).
  unfold create_copy in E. destruct (estimate_ro _ _ _ _ _) as [need|]; [|discriminate]. destruct (size <? need); [discriminate|].
  unfold from_ro in E. rewrite (asis_index A s T Few Big), (asis_payload A s T Few Big) in E. destruct (mi >? max_fields); [discriminate|]. destruct (size >? _); [discriminate|].
  destruct (estimate _ _ _ _) as [z|]; [|discriminate]. destruct (size <? z); [discriminate|].
  assert (Q : forall a b : st, Some a = Some b -> b = a) by (intros a b Q; congruence). apply Q in E.
  assert (H1 : pivot s' = Z.of_nat (cnt s) + mi) by (rewrite E; cbn [pivot]; lia).
  assert (H2 : cnt s' = cnt s) by (rewrite E; cbn [cnt]; lia).
  assert (H3 : tail s' = Z.of_nat (cnt s) + mi + (tail s - pivot s)) by (rewrite E; cbn [tail]; lia).
  assert (H4 : end_ s' <= 65534) by (rewrite E; cbn [end_]; change max_tuple_units_netto with 65534; lia).
  unfold head_space, tail_space. rewrite H1, H2, H3. lia.
Qed.

(** ** Examples *)
(** a tuple with a preplaced field, full; and one without a schema *)
Definition packed9 : st := final (new_tuple1 8 2) [OSet (fd g_bin96 2) true (blob 3 1); OSlot 0 true (vbin 2 6)].
Definition plain9 : st := final (new_tuple 20 4) [OSet (fd g_bin96 2) true (blob 3 1); OSet (fd g_u32 4) true (blob 1 7)].
Example C94_case : lived odd_multi packed9 /\ distinct_slots packed9 /\ layout_of packed9 layout9 /\ head_space packed9 = 1 /\ tail_space packed9 = 0 /\ jc packed9 = 0 /\ jv packed9 = 0 /\
  estimate_more packed9 3 20 4 = Some 108 /\ least packed9 3 20 = 104 /\ view packed9 (fd g_bin96 4) = [] /\
  match create_copy 4096 packed9 108 3 20 layout9 zeros with
  | Some s' => head_space s' = 3 /\ tail_space s' = 6 /\
      match run asis s' [OSet (fd g_bin96 4) true (blob 3 5); OAppend (fd g_u64 5) true (blob 2 9)] with Some (outs, s2) => outs = [true; true] /\ cnt s2 = 3%nat | None => False end
  | None => False
  end.
Proof.
  split; [apply l_reached; unfold packed9, plain9; now_reach|]. assert (N : nslots packed9 = 1%nat) by (vm_compute; reflexivity). split; [intros i j Hi Hj _; lia|]. split.
  - split; [cbn; lia|]. split; [vm_compute; reflexivity|]. split; [rewrite N; reflexivity|]. intros j Hj. rewrite N in Hj.
    assert (j = 0)%nat by lia. subst j. split; reflexivity.
  - do 7 (split; [vm_compute; reflexivity|]). vm_compute. repeat split; reflexivity.
Qed.
Example C94_wrap_case : lived odd_multi plain9 /\ distinct_slots plain9 /\ layout_of plain9 no_layout /\ cnt plain9 = 2%nat /\
  estimate_more plain9 (2 ^ 64 - 2) 0 0 = Some 60 /\ estimate_more plain9 0 0 0 = Some 68.
Proof.
  split; [apply l_reached; unfold packed9, plain9; now_reach|]. assert (N : nslots plain9 = 0%nat) by (vm_compute; reflexivity). split; [intros i j Hi; lia|]. split.
  - split; [cbn; lia|]. split; [vm_compute; reflexivity|]. split; [rewrite N; reflexivity|]. intros j Hj. lia.
  - vm_compute. repeat split; reflexivity.
Qed.
Example C94_largest_case : let s := plain9 in Z.of_nat (cnt s) + 8000 <= max_fields /\ 4 * (tail s - pivot s) + 260000 + 0 <= max_tuple_bytes_netto /\
  65534 < Z.of_nat (cnt s) + 8000 + (4 * (tail s - pivot s) + 260000) / 4.
Proof. vm_compute. repeat split; discriminate || reflexivity. Qed.

Print Assumptions C94_exact_partial.
Print Assumptions C94_excess_partial.
Print Assumptions C94_enough_partial.
Print Assumptions C94_least.
Print Assumptions C94_wrap_refuted.
Print Assumptions C94_refused_refuted.
Print Assumptions C94_largest_refuted.

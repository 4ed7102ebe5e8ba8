(** * Properties of compaction and sorting: C06 (second half), C07, C08 *)
From Verif Require Import Base Tag TagProofs Hippeus Scan Codec Gear GearBase GearSearch GearProofs GearAsis
  Tuple TupleProofs TupleSteps TupleView TupleOps TupleMore TupleHist TupleFacts PropertiesTuple Audit Image ImageProofs GearOpt GearOptProofs GearSortProofs.
From Coq Require Import ZifyBool ZifyNat Permutation Sorted.
Ltac Zify.zify_post_hook ::= Z.div_mod_to_equations.

(** a sorting function, so that the hypotheses can be met *)
Section Insertion.
  Context {A : Type}. Variable key : A -> Z.
  Fixpoint put_in (a : A) (l : list A) : list A :=
    match l with [] => [a] | b :: l' => if key a <=? key b then a :: b :: l' else b :: put_in a l' end.
  Fixpoint by_insertion (l : list A) : list A := match l with [] => [] | a :: l => put_in a (by_insertion l) end.
  Lemma put_in_perm a l : Permutation (a :: l) (put_in a l).
  Proof. induction l as [|b l IH]; cbn [put_in]; [reflexivity|]. destruct (key a <=? key b); [reflexivity|]. rewrite perm_swap, IH. reflexivity. Qed.
  Lemma put_in_sorted a l : StronglySorted (fun a b => key a <= key b) l -> StronglySorted (fun a b => key a <= key b) (put_in a l).
  Proof.
    intros S. induction S as [|b l S IH F]; cbn [put_in]; [repeat constructor|]. destruct (key a <=? key b) eqn:E.
    - constructor; [constructor; assumption|]. constructor; [lia|]. eapply Forall_impl; [|exact F]. cbn. intros. lia.
    - constructor; [assumption|]. rewrite Forall_forall in *. intros x Hx. apply (Permutation_in _ (Permutation_sym (put_in_perm a l))) in Hx. destruct Hx as [<-|Hx]; [lia|]. apply F. assumption.
  Qed.
  Lemma by_insertion_sorter : sorter key by_insertion.
  Proof.
    intros l. split; induction l as [|a l IH]; cbn [by_insertion]; [reflexivity| |constructor|].
    - rewrite <- put_in_perm. apply perm_skip. assumption.
    - apply put_in_sorted. assumption.
  Qed.
End Insertion.
Definition srt_chunks : list chunk -> list chunk := by_insertion c_off.
Definition srt_items : list sitem -> list sitem := by_insertion (fun i => - i_desc i).

(** ** States of a tuple whose history also contains compactions *)
(** Every variable-length loose field has a payload (or no index slot is junk), and every
    variable-length preplaced field is set (or no unit is junk). *)
Definition settled (s : st) : Prop := (jc s <> 0 -> paid_index s) /\ (jv s <> 0 -> paid_slots s).
Inductive worked (multi : Z -> bool) : st -> Prop :=
| w_reached s : reached multi s -> worked multi s
| w_calls s l outs s' : worked multi s -> calm_run multi s l -> run asis s l = Some (outs, s') -> worked multi s'
| w_compact s srt : worked multi s -> settled s -> sorter c_off srt -> worked multi (compactify srt s).

Lemma compacted_uniq multi s s2 : compacted s s2 -> uniq multi s -> uniq multi s2.
Proof. intros C U desc D M. rewrite (compacted_view s s2) by assumption. apply U; assumption. Qed.
Lemma worked_inv multi s : worked multi s -> TInv s /\ uniq multi s.
Proof.
  induction 1 as [s R|s l outs s' W [T U] C E|s srt W [T U] [S1 S2] SR].
  - apply (reached_inv multi s R).
  - destruct (history multi l s T U C) as (outs' & s1 & E' & _ & T1 & U1 & _). rewrite E in E'. assert (s' = s1) as -> by congruence. auto.
  - pose proof (compactify_ok s srt T SR S1 S2) as K. split; [apply K|]. eapply compacted_uniq; eassumption.
Qed.

(** ** C07 *)
(** what a user of the tuple sees: the fields with type, number and value in the order of the
    index, the preplaced fields, and what the getters return *)
Definition fields_in_order (s : st) : list (Z * list Z) :=
  flat_map (fun k => match field s (RL k) with Some f => [f] | None => [] end) (seq 0 (cnt s)).
Lemma flat_fields s : fields_in_order s =
  flat_map (fun o => match o with Some f => [f] | None => [] end) (map (fun k => field s (RL k)) (seq 0 (cnt s))).
Proof. unfold fields_in_order. rewrite !flat_map_concat_map, map_map. reflexivity. Qed.
Lemma holes_invisible s l : flat_map (fun o : option (Z * list Z) => match o with Some f => [f] | None => [] end) (map (fun k => field s (RL k)) (filter (fun k => negb (is_hole (idx s k))) l)) =
  flat_map (fun o => match o with Some f => [f] | None => [] end) (map (fun k => field s (RL k)) l).
Proof.
  induction l as [|a l IH]; [reflexivity|]. cbn [filter map flat_map]. destruct (is_hole (idx s a)) eqn:E; cbn [negb].
  - rewrite (field_dead s (RL a)) by (intros [_ X]; congruence). exact IH.
  - cbn [map flat_map]. rewrite IH. reflexivity.
Qed.
Theorem C07_compaction_partial : forall multi s srt, worked multi s -> settled s -> sorter c_off srt ->
  let s' := compactify srt s in
  fields_in_order s' = fields_in_order s /\
  (forall j, (j < nslots s)%nat -> field s' (RP j) = field s (RP j)) /\
  (forall desc, real_desc desc -> view s' desc = view s desc /\ get_loose s' desc = get_loose s desc) /\
  (forall j, (j < nslots s)%nat -> get_slot s' j = get_slot s j) /\
  jc s' = 0 /\ jv s' = 0 /\ (forall k, (k < cnt s')%nat -> is_hole (idx s' k) = false) /\
  head_space s' = head_space s + jc s /\ tail_space s' = tail_space s + jv s /\
  pivot s' = pivot s /\ end_ s' = end_ s /\ pp s' = pp s.
Proof.
  intros multi s srt W [S1 S2] SR s'. destruct (worked_inv multi s W) as [T U]. pose proof (compactify_ok s srt T SR S1 S2) as K. fold s' in K.
  split. { rewrite !flat_fields, (fields_kept s s' K). apply holes_invisible. }
  split; [intros j Hj; apply (k_slot _ _ K)|]. split. { intros desc D. split; [apply (compacted_view s s'); assumption|apply (compacted_get_loose s s'); assumption]. }
  split. { intros j Hj. apply (compacted_get_slot s s'); assumption. }
  pose proof (k_jc _ _ K) as J. split; [exact J|]. split; [apply K|]. split.
  { intros k Hk. pose proof (i_jc _ _ _ _ _ _ (v_acc _ _ (t_inv _ (k_inv _ _ K)))) as E. rewrite J in E. symmetry in E. replace (0 + 0) with 0 in E by reflexivity.
    pose proof (sumn_zero_inv (cnt s') (hcount s')) as Z. unfold hcount in *. destruct (is_hole (idx s' k)) eqn:H; [|reflexivity]. exfalso.
    assert (X : Z.b2z (is_hole (idx s' k)) = 0) by (apply Z; [intros i _; destruct (is_hole (idx s' i)); cbn; lia|lia|assumption]). rewrite H in X. discriminate X. }
  unfold head_space, tail_space. rewrite (k_cnt _ _ K), (k_tail _ _ K), (k_pivot _ _ K), (k_end _ _ K), (k_pp _ _ K), (kept_length s (plen s) (v_acc _ _ (t_inv _ T))). repeat split; lia.
Qed.
(** and the tuple goes on being usable: every read after further calls gives the last successful
    write, be it before or after the compaction *)
Theorem C07_then_history_partial : forall multi s srt l, worked multi s -> settled s -> sorter c_off srt ->
  calm_run multi (compactify srt s) l ->
  exists outs s', run asis (compactify srt s) l = Some (outs, s') /\
    forall k, single_key multi s k -> get s' k = last_write k (get s k) (combine l outs).
Proof.
  intros multi s srt l W [S1 S2] SR C. destruct (worked_inv multi s W) as [T U]. pose proof (compactify_ok s srt T SR S1 S2) as K.
  destruct (history multi l _ (k_inv _ _ K) (compacted_uniq multi s _ K U) C) as (outs & s' & R & _ & _ & _ & _ & G & _).
  exists outs, s'. split; [exact R|]. intros k Hk.
  assert (E : get (compactify srt s) k = get s k).
  { destruct k as [desc|j]; cbn [get single_key] in *; [apply (compacted_get_loose s); tauto|apply (compacted_get_slot s); assumption]. }
  rewrite <- E. apply G. destruct k as [desc|j]; cbn [single_key] in *; [assumption|rewrite (k_nslots _ _ K); assumption].
Qed.
(** optimize() with the flag for compaction *)
Theorem C07_optimize_partial : forall multi s srt srt', worked multi s -> settled s -> sorter c_off srt ->
  let s' := snd (optimize srt srt' (mkOF true false false) s) in
  fields_in_order s' = fields_in_order s /\ jc s' = 0 /\ jv s' = 0 /\
  (forall j, (j < nslots s)%nat -> get_slot s' j = get_slot s j) /\
  forall desc, real_desc desc -> get_loose s' desc = get_loose s desc.
Proof.
  intros multi s srt srt' W ST SR. unfold optimize. cbn [f_compact f_sort f_force andb orb]. destruct ((jc s =? 0) && (jv s =? 0)) eqn:E; cbn [negb].
  - cbn [snd]. repeat split; lia.
  - cbn [snd]. pose proof (C07_compaction_partial multi s srt W ST SR) as H. cbv zeta in H. destruct H as (H1 & _ & H2 & H3 & H4 & H5 & _).
    repeat split; try assumption. intros desc D. apply H2. assumption.
Qed.

Lemma settled_dec s :
  forallb (fun k => is_hole (idx s k) || negb (stretchy_ref s (RL k)) || negb (rel (idx s k) =? 0)) (seq 0 (cnt s)) &&
  forallb (fun j => negb (pre s j =? 0)) (seq 0 (nslots s)) = true -> settled s.
Proof.
  intros H. apply andb_prop in H as [H1 H2]. rewrite forallb_forall in *. split; intros _.
  - intros k [Hk Hh] St. specialize (H1 k ltac:(apply in_seq; lia)). rewrite Hh, St in H1. cbn in H1. lia.
  - intros j Hj. specialize (H2 j ltac:(apply in_seq; lia)). cbn beta in H2. lia.
Qed.
(** a tuple with one junk index slot and two junk units, a set preplaced field and fields of
    several types *)
Example C07_case : worked odd_multi before9 /\ settled before9 /\ sorter c_off srt_chunks /\
  jc before9 = 1 /\ jv before9 = 2 /\ cnt before9 = 4%nat /\ length (fields_in_order before9) = 3%nat /\
  calm_runb odd_multi (compactify srt_chunks before9) [OSet (fd g_varbin 2) true (vbin 7 3); OSlot 0 true (vbin 2 1); ORemove (fd g_i64 6)] = true.
Proof.
  split; [apply w_reached; now_reach|]. split; [apply settled_dec; vm_compute; reflexivity|]. split; [apply by_insertion_sorter|].
  repeat (split; [vm_compute; reflexivity|]). vm_compute. reflexivity.
Qed.
(** A loose field without payload (a null nested tuple) comes out of compaction with a reference
    into the data of other fields: sub_delta() is applied to the zero reference
    (gear.cxx:784-790). *)
Definition hollow_history : list op :=
  [OSet (fd g_u32 2) true (blob 1 5); OSet (fd g_u32 4) true (blob 1 6); OAppend (fd g_nested 1) true nothing;
   OSet (fd g_u32 6) true (blob 1 7); ORemove (fd g_u32 2)].
Theorem C07_null_field_refuted : exists s srt, reached odd_multi s /\ sorter c_off srt /\
  view s (fd g_nested 1) = [[]] /\ view (compactify srt s) (fd g_nested 1) <> view s (fd g_nested 1) /\
  get_loose s (fd g_nested 1) = None /\ get_loose (compactify srt s) (fd g_nested 1) <> None.
Proof.
  exists (final (new_tuple 16 6) hollow_history), srt_chunks. split; [now_reach|]. split; [apply by_insertion_sorter|].
  vm_compute. repeat split; discriminate.
Qed.
(** A variable-length preplaced field that was never set becomes set by compaction
    (gear.cxx:826-836: compact_item is built without have_payload()). *)
Definition gap_history : list op :=
  [OSet (fd g_u32 2) true (blob 1 5); OSet (fd g_u32 4) true (blob 1 6); OSet (fd g_u32 8) true (blob 1 6); ORemove (fd g_u32 2)].
Theorem C07_unset_preplaced_refuted : exists s srt, reached odd_multi s /\ sorter c_off srt /\
  get_slot s 0 = None /\ get_slot (compactify srt s) 0 <> None.
Proof.
  exists (final (new_tuple1 16 6) gap_history), srt_chunks. split; [now_reach|]. split; [apply by_insertion_sorter|].
  vm_compute. repeat split; discriminate.
Qed.

(** ** C06, second half: after compaction a field can be created whenever the live fields and the
    new one fit the capacity *)
Lemma no_holes_calm s u : TInv s -> jc s = 0 -> 0 <= u < 65536 -> split_slip s u = false.
Proof.
  intros T J U. unfold split_slip. destruct (Z.eq_dec u 0) as [->|N]; [reflexivity|]. replace (u =? 0) with false by lia. cbn [negb andb].
  unfold lookup_fit. rewrite J. reflexivity.
Qed.
Theorem C06_after_compaction_partial : forall multi s srt desc disc v,
  worked multi s -> settled s -> sorter c_off srt ->
  valid multi s (OSet desc disc v) -> lookup_gid s desc = None ->
  new_units desc v <= tail_space s + jv s -> 1 <= head_space s + jc s ->
  exists s', run1 asis (compactify srt s) (OSet desc disc v) = Ok tt s'.
Proof.
  intros multi s srt desc disc v W ST SR V L H1 H2. pose proof (C07_compaction_partial multi s srt W ST SR) as H. cbv zeta in H.
  destruct H as (_ & _ & HV & _ & J & _ & _ & HS & TS & _). destruct (worked_inv multi _ (w_compact multi s srt W ST SR)) as [T' U'].
  set (s' := compactify srt s) in *. pose proof V as (Hd & Hm & Hw).
  assert (L' : lookup_gid s' desc = None).
  { destruct (lookup_gid s' desc) as [k|] eqn:E; [exfalso|reflexivity]. destruct (HV desc Hd) as [Ev _].
    assert (Ev' : view s desc = []) by (apply lookup_none; assumption). rewrite Ev' in Ev.
    destruct (lookup_view s' desc k E) as (l & E2). rewrite E2 in Ev. discriminate Ev. }
  apply (insert_succeeds multi s' desc disc v T'); [exact V| |exact L'|left; lia].
  unfold calm. rewrite L'. unfold calm_new. apply Bool.orb_true_iff. right. apply Bool.negb_true_iff.
  apply no_holes_calm; [assumption|assumption|]. pose proof (loose_units_range (descriptor2genus desc)). unfold tail_space in H1.
  pose proof (v_acc _ _ (t_inv _ T')) as A. destruct (i_cfg _ _ _ _ _ _ A) as [C1 C2 C3 C4 C5]. unfold tail_space, base in *. unfold new_units in *. destruct (fixed_genus _); lia.
Qed.
(** before compaction the call fails in this state, after it the call succeeds *)
Example C06_after_case : exists s v, worked odd_multi s /\ settled s /\ valid odd_multi s (OSet (fd g_bin128 8) true v) /\
  lookup_gid s (fd g_bin128 8) = None /\ new_units (fd g_bin128 8) v = 4 /\ tail_space s = 3 /\ jv s = 1 /\ head_space s = 0 /\ jc s = 1 /\
  (exists s', run1 asis s (OSet (fd g_bin128 8) true v) = Throw s').
Proof.
  exists (final (new_tuple1 18 4) (firstn 9 sample)), (blob 4 3). split; [apply w_reached; now_reach|]. split; [apply settled_dec; vm_compute; reflexivity|].
  split; [apply validb_ok; vm_compute; reflexivity|]. do 6 (split; [vm_compute; reflexivity|]).
  eexists. apply run1_failed. vm_compute. reflexivity.
Qed.

(** ** C08 *)
(** What sorting does: the index gets into descending order and every field whose payload is not
    among the first cnt units behind the pivot keeps its type, number and value.  The hypothesis
    on the numbers excludes fields of type text with number zero and sets no other limit. *)
Definition payload_in (s : st) (k : nat) (a b : Z) : Prop := plen s (RL k) = 0 \/ b <= raddr s (RL k) \/ raddr s (RL k) + plen s (RL k) <= a.
Theorem C08_far_fields_kept_partial : forall s srt, TInv s -> sorter (fun i => - i_desc i) srt ->
  (forall k, (k < cnt s)%nat -> gid (idx s k) <> 0) ->
  let s' := snd (sort_index true srt s) in
  cnt s' = cnt s /\ descending s' = true /\
  exists pi, Permutation (map pi (seq 0 (cnt s))) (seq 0 (cnt s)) /\
    (forall p, (p < cnt s)%nat -> gid (idx s' p) = gid (idx s (pi p))) /\
    (forall p, live s' (RL p) -> payload_in s (pi p) (pivot s) (pivot s + Z.of_nat (cnt s)) -> field s' (RL p) = field s (RL (pi p))).
Proof.
  intros s srt T SR G. destruct (descending s) eqn:D.
  - unfold sort_index. rewrite D. cbn [snd]. split; [reflexivity|]. split; [exact D|]. exists (fun p => p). rewrite map_id. repeat split; auto.
  - destruct (sort_reordered s srt true T SR D (fun _ => G)) as (pi & R & DS). cbv zeta. split; [apply R|]. split; [exact DS|]. exists pi. split; [apply R|]. split; [apply R|].
    intros p Hp Hf. apply (ro_field s _ pi _ T R (RL p) Hp). split; [|exact I]. cbn [prm]. destruct Hf as [Hf|[Hf|Hf]]; [auto|auto|].
    assert (L : live s (RL (pi p))) by (apply (proj1 (ro_live s _ pi _ R (RL p)) Hp)). pose proof (plen_nonneg s (RL (pi p))).
    destruct (Z.eq_dec (plen s (RL (pi p))) 0); [left; assumption|]. pose proof (live_bounds s (plen s) (v_acc _ _ (t_inv _ T)) _ L ltac:(lia)) as B.
    destruct (i_cfg _ _ _ _ _ _ (v_acc _ _ (t_inv _ T))) as [C1 C2 C3 C4 C5]. unfold base in B. lia.
Qed.
(** When the fixed-size preplaced part is long enough to take the stray writes, no loose field and
    no variable-length preplaced field suffers (the fixed-size preplaced fields do). *)
Theorem C08_padded_partial : forall s srt, TInv s -> sorter (fun i => - i_desc i) srt ->
  (forall k, (k < cnt s)%nat -> gid (idx s k) <> 0) ->
  Z.of_nat (cnt s) <= pp s -> (forall j, (j < nslots s)%nat -> Z.of_nat (cnt s) <= soff s j) ->
  let s' := snd (sort_index true srt s) in
  TInv s' /\ descending s' = true /\ (forall j, (j < nslots s)%nat -> field s' (RP j) = field s (RP j)) /\
  exists pi, Permutation (map pi (seq 0 (cnt s))) (seq 0 (cnt s)) /\ forall p, (p < cnt s)%nat -> field s' (RL p) = field s (RL (pi p)).
Proof.
  intros s srt T SR G PP SO. destruct (descending s) eqn:D.
  - unfold sort_index. rewrite D. cbn [snd]. split; [assumption|]. split; [exact D|]. split; [reflexivity|]. exists (fun p => p). rewrite map_id. split; auto.
  - destruct (sort_reordered s srt true T SR D (fun _ => G)) as (pi & R & DS). cbv zeta. set (s' := snd _) in *.
    assert (W : 0 <= Z.of_nat (cnt s)) by lia. split; [apply (reordered_inv s s' pi _ T R); assumption|]. split; [exact DS|]. split.
    { intros j Hj. assert (L : live s' (RP j)) by (cbn; rewrite (ro_nslots _ _ _ _ R); assumption).
      apply (ro_field s s' pi _ T R (RP j) L). apply (all_spared s s' pi _ T R PP SO _ L). }
    exists pi. split; [apply R|]. intros p Hp. destruct (is_hole (idx s' p)) eqn:H.
    + rewrite (proj1 (ro_hole s s' pi _ R p Hp)) in H. rewrite !field_dead; [reflexivity|intros [_ X]; congruence|].
      intros [_ X]. rewrite (proj1 (ro_hole s s' pi _ R p Hp)) in X. congruence.
    + assert (L : live s' (RL p)) by (split; [rewrite (ro_cnt _ _ _ _ R); assumption|assumption]).
      apply (ro_field s s' pi _ T R (RL p) L). apply (all_spared s s' pi _ T R PP SO _ L).
Qed.
(** The intended sort (a vector that starts empty) keeps everything. *)
Theorem C08_repaired_sort : forall s srt, TInv s -> sorter (fun i => - i_desc i) srt ->
  let s' := snd (sort_index false srt s) in
  TInv s' /\ descending s' = true /\ (forall j, (j < nslots s)%nat -> field s' (RP j) = field s (RP j)) /\
  exists pi, Permutation (map pi (seq 0 (cnt s))) (seq 0 (cnt s)) /\ forall p, (p < cnt s)%nat -> field s' (RL p) = field s (RL (pi p)).
Proof.
  intros s srt T SR. destruct (descending s) eqn:D.
  - unfold sort_index. rewrite D. cbn [snd]. split; [assumption|]. split; [exact D|]. split; [reflexivity|]. exists (fun p => p). rewrite map_id. split; auto.
  - destruct (sort_reordered s srt false T SR D ltac:(discriminate)) as (pi & R & DS). cbv zeta. set (s' := snd _) in *. cbn iota in R.
    destruct (i_cfg _ _ _ _ _ _ (v_acc _ _ (t_inv _ T))) as [C1 C2 C3 C4 C5].
    assert (PP : 0 <= pp s) by lia. assert (SO : forall j, (j < nslots s)%nat -> 0 <= soff s j) by (intros j Hj; specialize (C5 j Hj); lia).
    split; [apply (reordered_inv s s' pi _ T R); assumption || lia|]. split; [exact DS|]. split.
    { intros j Hj. assert (L : live s' (RP j)) by (cbn; rewrite (ro_nslots _ _ _ _ R); assumption).
      apply (ro_field s s' pi _ T R (RP j) L). apply (all_spared s s' pi _ T R PP SO _ L). }
    exists pi. split; [apply R|]. intros p Hp. destruct (is_hole (idx s' p)) eqn:H.
    + rewrite (proj1 (ro_hole s s' pi _ R p Hp)) in H. rewrite !field_dead; [reflexivity|intros [_ X]; congruence|].
      intros [_ X]. rewrite (proj1 (ro_hole s s' pi _ R p Hp)) in X. congruence.
    + assert (L : live s' (RL p)) by (split; [rewrite (ro_cnt _ _ _ _ R); assumption|assumption]).
      apply (ro_field s s' pi _ T R (RL p) L). apply (all_spared s s' pi _ T R PP SO _ L).
Qed.
(** sorting overwrites the first payload units with zeros (gear.cxx:921-942: the vector is
    constructed with index_size() items and as many are appended) *)
Definition unsorted_history : list op :=
  [OSet (fd g_u32 4) true (blob 1 5); OSet (fd g_varbin 2) true (vbin 2 7); OSet (fd g_u64 6) true (blob 2 8)].
Theorem C08_sort_destroys_refuted : exists s srt, reached odd_multi s /\ sorter (fun i => - i_desc i) srt /\ descending s = false /\
  get_loose s (fd g_u32 4) = Some [5] /\ get_loose (snd (optimize srt_chunks srt (mkOF false false true) s)) (fd g_u32 4) = Some [0] /\
  get_loose s (fd g_varbin 2) = Some [2; 7] /\ get_loose (snd (optimize srt_chunks srt (mkOF false false true) s)) (fd g_varbin 2) <> Some [2; 7].
Proof.
  exists (final (new_tuple 16 6) unsorted_history), srt_items. split; [now_reach|]. split; [apply by_insertion_sorter|]. vm_compute. repeat split; discriminate.
Qed.
(** and it writes beyond the end of the buffer *)
Definition small_tuple : st := fresh 4 4 0 0 no_slots no_slots (fun _ => 85).
Theorem C08_sort_overflow_refuted : exists s srt x, reached odd_multi s /\ sorter (fun i => - i_desc i) srt /\
  end_ s <= x /\ dat s x = 85 /\ dat (snd (optimize srt_chunks srt (mkOF false false true) s)) x = 0.
Proof.
  exists (final small_tuple [OSet (fd g_u16 6) true (blob 1 7); OSet (fd g_u16 2) true (blob 1 5)]), srt_items, 5.
  split; [apply reached_final; [constructor; unfold no_slots; intros; lia|vm_compute; reflexivity]|]. split; [apply by_insertion_sorter|]. vm_compute. repeat split; discriminate.
Qed.
Example C08_case : exists s, reached odd_multi s /\ descending s = false /\ cnt s = 3%nat /\
  (forall k, (k < cnt s)%nat -> gid (idx s k) <> 0) /\ payload_in s 2 (pivot s) (pivot s + Z.of_nat (cnt s)) /\ plen s (RL 2) = 2.
Proof.
  exists (final (new_tuple 16 6) unsorted_history). split; [now_reach|]. split; [vm_compute; reflexivity|]. split; [vm_compute; reflexivity|].
  split; [|split; [|vm_compute; reflexivity]].
  - intros k Hk. change (cnt _) with 3%nat in Hk. destruct k as [|[|[|k]]]; [vm_compute; discriminate..|lia].
  - right. left. vm_compute. discriminate.
Qed.
(** four units of fixed-size preplaced fields, two loose fields out of order *)
Example C08_padded_case : exists s, reached odd_multi s /\ descending s = false /\ cnt s = 2%nat /\ Z.of_nat (cnt s) <= pp s /\ nslots s = 0%nat /\
  forall k, (k < cnt s)%nat -> gid (idx s k) <> 0.
Proof.
  exists (final (fresh 16 6 4 0 no_slots no_slots zeros) (firstn 2 unsorted_history)).
  split; [apply reached_final; [constructor; unfold no_slots; intros; lia|vm_compute; reflexivity]|].
  do 4 (split; [vm_compute; (reflexivity || discriminate)|]).
  intros k Hk. change (cnt _) with 2%nat in Hk. destruct k as [|[|k]]; [vm_compute; discriminate..|lia].
Qed.
(** below the threshold of 256 fields the plain sort flag does nothing *)
Theorem C08_below_threshold : forall s srt srt', Z.of_nat (cnt s) - jc s < 256 -> optimize srt srt' (mkOF false true false) s = (false, s).
Proof. intros. unfold optimize. cbn [f_compact f_sort f_force andb orb]. replace (256 <=? Z.of_nat (cnt s) - jc s) with false by lia. reflexivity. Qed.

(** ** C67: optimize() tells when iterators become invalid; callers choose whether it runs *)
Lemma no_junk_no_hole s k : TInv s -> jc s = 0 -> (k < cnt s)%nat -> is_hole (idx s k) = false.
Proof.
  intros T J Hk. pose proof (i_jc _ _ _ _ _ _ (v_acc _ _ (t_inv _ T))) as E. rewrite J in E. symmetry in E. replace (0 + 0) with 0 in E by reflexivity.
  pose proof (sumn_zero_inv (cnt s) (hcount s)) as Z. unfold hcount in *. destruct (is_hole (idx s k)) eqn:H; [|reflexivity]. exfalso.
  assert (X : Z.b2z (is_hole (idx s k)) = 0) by (apply Z; [intros i _; destruct (is_hole (idx s i)); cbn; lia|lia|assumption]). rewrite H in X. discriminate X.
Qed.
Lemma no_holes_no_volume s : TInv s -> jc s = 0 -> jv s = 0.
Proof.
  intros T J. pose proof (i_jv _ _ _ _ _ _ (v_acc _ _ (t_inv _ T))) as E. rewrite <- (Z.add_0_r (jv s)), <- E. apply sumn_zero. intros k Hk. unfold hvol.
  rewrite (no_junk_no_hole s k T J Hk). reflexivity.
Qed.
(** When the answer is "still valid" nothing has changed at all: junk units are always owned by
    junk index slots.  For all flags and whatever the sorting functions do. *)
Theorem C67_still_valid_partial : forall multi s t srt srt' f, worked multi s -> optimize srt srt' f s = (false, t) -> t = s.
Proof.
  intros multi s t srt srt' f W H. destruct (worked_inv multi s W) as [T U]. unfold optimize in H.
  destruct (f_compact f && negb ((jc s =? 0) && (jv s =? 0))) eqn:E.
  - pose proof (i_jcr _ _ _ _ _ _ (v_acc _ _ (t_inv _ T))). destruct (Z.eq_dec (jc s) 0) as [J|J].
    + rewrite J, (no_holes_no_volume s T J) in E. destruct (f_compact f); discriminate.
    + replace (jc s >? 0) with true in H by lia.
      destruct ((f_sort f && (256 <=? Z.of_nat (cnt (compactify srt s)) - jc (compactify srt s))) || f_force f); [|discriminate].
      destruct (sort_index true srt' (compactify srt s)); discriminate.
  - destruct ((f_sort f && (256 <=? Z.of_nat (cnt s) - jc s)) || f_force f); [|congruence].
    unfold sort_index in H. destruct (descending s); cbn [orb] in H; [congruence|discriminate].
Qed.
(** and compaction does not cry wolf: positions of the index are gone *)
Theorem C67_invalid_partial : forall multi s t srt srt', worked multi s -> settled s -> sorter c_off srt -> optimize srt srt' (mkOF true false false) s = (true, t) ->
  (cnt t < cnt s)%nat.
Proof.
  intros multi s t srt srt' W [S1 S2] SR H. destruct (worked_inv multi s W) as [T U]. pose proof (compactify_ok s srt T SR S1 S2) as K.
  unfold optimize in H. cbn [f_compact f_sort f_force andb orb] in H. destruct (negb ((jc s =? 0) && (jv s =? 0))); [|discriminate].
  assert (J : jc s > 0) by (destruct (jc s >? 0) eqn:J; [lia|discriminate]). assert (t = compactify srt s) as -> by congruence.
  pose proof (kept_length s (plen s) (v_acc _ _ (t_inv _ T))). rewrite (k_cnt _ _ K). lia.
Qed.
(** and sorting answers exactly whether some entry is greater than the one before it in memory *)
Theorem C67_sort_answer : forall s srt srt', fst (optimize srt srt' (mkOF false false true) s) = true <->
  exists k, (S k < cnt s)%nat /\ gid (idx s k) > gid (idx s (S k)).
Proof.
  intros s srt srt'. unfold optimize, sort_index. cbn [f_compact f_sort f_force andb orb].
  assert (E : descending s = true <-> forall k, (S k < cnt s)%nat -> gid (idx s k) <= gid (idx s (S k))).
  { unfold descending. rewrite forallb_forall. split.
    - intros H k Hk. specialize (H k ltac:(apply in_seq; lia)). lia.
    - intros H k Hk. apply in_seq in Hk. specialize (H k ltac:(lia)). lia. }
  destruct (descending s); cbn [fst].
  - split; [discriminate|]. intros (k & Hk & G). pose proof (proj1 E eq_refl k Hk). lia.
  - split; [|reflexivity]. intros _.
    assert (X : existsb (fun k => gid (idx s k) >? gid (idx s (S k))) (seq 0 (cnt s - 1)) = true).
    { destruct (existsb _ _) eqn:X; [reflexivity|]. exfalso. assert (F : false = true); [|discriminate F]. apply E. intros k Hk.
      destruct (Z.le_gt_cases (gid (idx s k)) (gid (idx s (S k)))) as [?|G]; [assumption|]. exfalso.
      assert (Y : existsb (fun k => gid (idx s k) >? gid (idx s (S k))) (seq 0 (cnt s - 1)) = true).
      { apply existsb_exists. exists k. split; [apply in_seq; lia|lia]. } congruence. }
    apply existsb_exists in X as (k & K1 & K2). apply in_seq in K1. exists k. split; lia.
Qed.
Example C67_case : worked odd_multi before9 /\ settled before9 /\ fst (optimize srt_chunks srt_items (mkOF true false false) before9) = true /\
  fst (optimize srt_chunks srt_items opt_all (compactify srt_chunks before9)) = false /\
  fst (optimize srt_chunks srt_items (mkOF false false true) before9) = true /\ worked odd_multi (compactify srt_chunks before9).
Proof.
  assert (W : worked odd_multi before9) by (apply w_reached; now_reach). assert (ST : settled before9) by (apply settled_dec; vm_compute; reflexivity).
  split; [exact W|]. split; [exact ST|]. split; [vm_compute; reflexivity|]. split; [vm_compute; reflexivity|]. split; [vm_compute; reflexivity|]. apply w_compact; auto. apply by_insertion_sorter.
Qed.
(** take_weak(dont_optimize) does the opposite of what it is asked for: by default nothing is
    compacted, and with [true] the fields move and iterators are lost; move_to_ro() is right. *)
Theorem C67_take_weak_refuted : exists s, worked odd_multi s /\ settled s /\ jc s <> 0 /\
  take_weak srt_chunks srt_items false s = (false, s) /\
  fst (take_weak srt_chunks srt_items true s) = true /\ jc (snd (take_weak srt_chunks srt_items true s)) = 0 /\
  move_to_ro srt_chunks srt_items true s = s /\ jc (move_to_ro srt_chunks srt_items false s) = 0.
Proof.
  exists before9. split; [apply w_reached; now_reach|]. split; [apply settled_dec; vm_compute; reflexivity|]. split; [vm_compute; discriminate|].
  split; [reflexivity|]. split; [vm_compute; reflexivity|]. split; [vm_compute; reflexivity|]. split; [reflexivity|]. vm_compute. reflexivity.
Qed.
(** either way the readable view holds the same fields *)
Theorem C67_same_fields_partial : forall multi s srt srt' d, worked multi s -> settled s -> sorter c_off srt -> Z.of_nat (cnt s) < 256 ->
  fields_in_order (snd (take_weak srt srt' d s)) = fields_in_order s /\ fields_in_order (move_to_ro srt srt' d s) = fields_in_order s.
Proof.
  intros multi s srt srt' d W ST SR C. destruct (worked_inv multi s W) as [T U].
  assert (E : fields_in_order (snd (optimize srt srt' opt_all s)) = fields_in_order s).
  { pose proof (C07_compaction_partial multi s srt W ST SR) as H. cbv zeta in H. destruct H as (H & _ & _ & _ & J & _). pose proof ST as [S1 S2].
    pose proof (compactify_ok s srt T SR S1 S2) as K. pose proof (i_jcr _ _ _ _ _ _ (v_acc _ _ (t_inv _ T))).
    unfold optimize, opt_all. cbn [f_compact f_sort f_force andb]. destruct (negb ((jc s =? 0) && (jv s =? 0))).
    - assert (X : 256 <=? Z.of_nat (cnt (compactify srt s)) - jc (compactify srt s) = false).
      { rewrite J, (k_cnt _ _ K), (kept_length s (plen s) (v_acc _ _ (t_inv _ T))). lia. }
      rewrite X. cbn [orb snd]. exact H.
    - replace (256 <=? Z.of_nat (cnt s) - jc s) with false by lia. reflexivity. }
  unfold take_weak, move_to_ro, take_optimized. destruct d; cbn [negb snd]; auto.
Qed.

Print Assumptions C07_compaction_partial.
Print Assumptions C07_then_history_partial.
Print Assumptions C07_optimize_partial.
Print Assumptions C07_null_field_refuted.
Print Assumptions C07_unset_preplaced_refuted.
Print Assumptions C06_after_compaction_partial.
Print Assumptions C08_far_fields_kept_partial.
Print Assumptions C08_padded_partial.
Print Assumptions C08_repaired_sort.
Print Assumptions C08_sort_destroys_refuted.
Print Assumptions C08_sort_overflow_refuted.
Print Assumptions C08_below_threshold.
Print Assumptions C67_still_valid_partial.
Print Assumptions C67_invalid_partial.
Print Assumptions C67_sort_answer.
Print Assumptions C67_take_weak_refuted.
Print Assumptions C67_same_fields_partial.

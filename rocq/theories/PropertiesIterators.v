(** * Properties of iteration over fields: C33 *)
From Verif Require Import Base Tag TagProofs Codec Gear GearBase GearProofs Tuple TupleProofs TupleView TupleMore TupleHist TupleFacts
  PropertiesTuple GearOpt GearOptProofs GearSortProofs PropertiesOpt Audit Schema SchemaProofs PropertiesSchema Iterators IteratorsProofs.
From Coq Require Import ZifyBool ZifyNat Permutation Sorted.
Ltac Zify.zify_post_hook ::= Z.div_mod_to_equations.

(** ** Iteration over the index *)
Definition index_positions (n : nat) : list Z := map (fun k => -1 - Z.of_nat k) (seq 0 n).
Theorem C33_index_both_ways : forall n,
  walk n (fun p => Some (loose_inc p)) loose_begin (loose_stop (Z.of_nat n)) = Some (index_positions n) /\
  back n (fun p => Some (loose_dec p)) (loose_stop (Z.of_nat n)) loose_begin = Some (rev (index_positions n)) /\
  NoDup (index_positions n).
Proof.
  intros n. unfold index_positions. split; [|split].
  - assert (Q : forall m k, let l := map (fun k => -1 - Z.of_nat k) (seq k m) in let e := loose_stop (Z.of_nat (k + m)) in
      chain (fun p => Some (loose_inc p)) l e /\ hd e l = -1 - Z.of_nat k).
    { induction m as [|m IH]; intros k; cbn [seq map chain hd]; [split; [exact I|unfold loose_stop; lia]|].
      destruct (IH (S k)) as [C H]. replace (S k + m)%nat with (k + S m)%nat in * by lia. cbv zeta in *.
      split; [|reflexivity]. split; [unfold loose_stop; lia|]. split; [|exact C]. rewrite H. unfold loose_inc. f_equal. lia. }
    destruct (Q n 0%nat) as [C H]. cbv zeta in *. cbn [Nat.add] in *. change loose_begin with (-1 - Z.of_nat 0). rewrite <- H. apply walk_chain; [|exact C].
    rewrite map_length, seq_length. lia.
  - apply back_down; [rewrite rev_length, map_length, seq_length; lia|].
    induction n as [|n IH]; [reflexivity|]. rewrite seq_S, map_app, rev_app_distr. cbn [map rev app Nat.add down].
    split; [unfold loose_stop, loose_begin; lia|]. split; [unfold loose_stop, loose_dec; f_equal; lia|].
    replace (-1 - Z.of_nat n) with (loose_stop (Z.of_nat n)) by (unfold loose_stop; lia). exact IH.
  - apply FinFun.Injective_map_NoDup; [|apply seq_NoDup]. intros a b E. lia.
Qed.
(** stepping, shifting, differences and comparisons agree *)
Theorem C33_random_access : forall (n : nat) a b i,
  Nat.iter n loose_inc a = loose_plus a (Z.of_nat n) /\ Nat.iter n loose_dec a = loose_minus a (Z.of_nat n) /\
  loose_minus (loose_plus a i) i = a /\ loose_plus b (loose_diff a b) = a /\ loose_diff (loose_plus a i) a = i /\
  loose_at a i = loose_plus a i /\
  (loose_lt a b = true <-> loose_diff b a > 0) /\ (loose_le a b = true <-> loose_lt a b = true \/ a = b) /\
  loose_dec (loose_inc a) = a /\ loose_inc (loose_dec a) = a.
Proof.
  intros n a b i. unfold loose_plus, loose_minus, loose_diff, loose_at, loose_lt, loose_le, loose_inc, loose_dec.
  assert (A : forall n, Nat.iter n (fun p => p - 1) a = a - Z.of_nat n).
  { clear. induction n as [|n IH]; [cbn; lia|]. cbn [Nat.iter nat_rect]. change (nat_rect _ _ _ n) with (Nat.iter n (fun p => p - 1) a). rewrite IH. lia. }
  assert (B : forall n, Nat.iter n (fun p => p + 1) a = a + Z.of_nat n).
  { clear. induction n as [|n IH]; [cbn; lia|]. cbn [Nat.iter nat_rect]. change (nat_rect _ _ _ n) with (Nat.iter n (fun p => p + 1) a). rewrite IH. lia. }
  rewrite A, B.
  repeat split; lia.
Qed.
(** The postfix forms do not move the iterator, and what they return lies on the wrong side: a loop
    [while (it != end) use(it++)] never ends, for every non-empty index. *)
Theorem C33_postfix_refuted : forall p,
  fst (loose_post_inc p) = p /\ snd (loose_post_inc p) = loose_dec p /\ snd (loose_post_inc p) <> loose_inc p /\
  fst (loose_post_dec p) = p /\ snd (loose_post_dec p) = loose_inc p /\
  (forall n e, p <> e -> walk n (fun q => Some (fst (loose_post_inc q))) p e = None) /\
  (forall s null f, fst (it_post_inc s null f p) = p /\ fst (it_post_dec s null f p) = p) /\
  (forall s null f n e, p <> e -> walk n (fun q => Some (fst (it_post_inc s null f q))) p e = None).
Proof.
  intros p. unfold loose_post_inc, loose_post_dec, it_post_inc, it_post_dec, loose_inc, loose_dec. cbn [fst snd].
  repeat split; try lia; intros; (induction n as [|n IH]; cbn [walk]; replace (p =? e) with false by lia; [reflexivity|rewrite IH; reflexivity]).
Qed.

(** ** The fields of a tuple *)
(** what the iterators over the index of a tuple show, in order *)
Definition shown_entries (s : st) : list (option (Z * list Z)) :=
  map (fun p => field s (RL (Z.to_nat (-1 - p)))) (index_positions (cnt s)).
Lemma shown_seq s : shown_entries s = map (fun k => field s (RL k)) (seq 0 (cnt s)).
Proof. unfold shown_entries, index_positions. rewrite map_map. apply map_ext. intros k. do 2 f_equal. lia. Qed.
(** Every field is visited exactly once, in order; the other positions visited are as many as the
    junk counter says. *)
Theorem C33_visits_every_field : forall multi s, worked multi s ->
  flat_map (fun o => match o with Some f => [f] | None => [] end) (shown_entries s) = fields_in_order s /\
  Z.of_nat (length (filter (fun o => match o with Some _ => false | None => true end) (shown_entries s))) = jc s /\
  (forall k, (k < cnt s)%nat -> own s k = pivot s + nth k (index_positions (cnt s)) 0).
Proof.
  intros multi s W. destruct (worked_inv multi s W) as [T U]. rewrite shown_seq, flat_fields. split; [reflexivity|]. split.
  - destruct (accounting s T) as (J & _). rewrite J. clear.
    assert (H : forall n, (n <= cnt s)%nat -> Z.of_nat (length (filter (fun o : option (Z * list Z) => match o with Some _ => false | None => true end)
        (map (fun k => field s (RL k)) (seq 0 n)))) = sumn n (hcount s)).
    { induction n as [|n IH]; intros L; [reflexivity|]. rewrite seq_S, map_app, filter_app, app_length. cbn [map filter Nat.add sumn].
      rewrite Nat2Z.inj_add, IH by lia. unfold hcount. unfold field at 1. unfold liveb. replace (n <? cnt s)%nat with true by lia. cbn [andb].
      destruct (is_hole (idx s n)); cbn [negb Z.b2z length]; lia. }
    apply H. lia.
  - intros k Hk. unfold index_positions.
    rewrite (nth_indep _ 0 ((fun k => -1 - Z.of_nat k) 0%nat)) by (rewrite map_length, seq_length; lia).
    rewrite (map_nth (fun k => -1 - Z.of_nat k)), seq_nth by lia. unfold own. lia.
Qed.
(** So a tuple without holes in its index shows its fields and nothing else. *)
Theorem C33_only_fields_partial : forall multi s, worked multi s -> jc s = 0 ->
  shown_entries s = map Some (fields_in_order s) /\
  (forall k, (k < cnt s)%nat -> exists f, field s (RL k) = Some f).
Proof.
  intros multi s W J. destruct (C33_visits_every_field multi s W) as (F & N & _). rewrite J in N.
  assert (A : forall o, In o (shown_entries s) -> exists f, o = Some f).
  { intros o Ho. destruct o as [f|]; [eauto|exfalso].
    assert (X : In None (filter (fun o : option (Z * list Z) => match o with Some _ => false | None => true end) (shown_entries s))) by (apply filter_In; split; [exact Ho|reflexivity]).
    destruct (filter _ (shown_entries s)); [exact X|cbn in N; lia]. }
  split.
  - rewrite <- F. clear - A. induction (shown_entries s) as [|o l IH]; [reflexivity|]. destruct (A o (or_introl eq_refl)) as [f ->].
    cbn [flat_map app map]. rewrite <- IH; [reflexivity|]. intros o Ho. apply A. right. exact Ho.
  - intros k Hk. apply A. rewrite shown_seq. apply in_map_iff. exists k. split; [reflexivity|]. apply in_seq. lia.
Qed.
(** in particular a tuple just compacted *)
Theorem C33_compacted : forall multi s srt, worked multi s -> settled s -> sorter c_off srt ->
  shown_entries (compactify srt s) = map Some (fields_in_order s).
Proof.
  intros multi s srt W S R. destruct (C07_compaction_partial multi s srt W S R) as (F & _ & _ & _ & J & _).
  rewrite (proj1 (C33_only_fields_partial multi _ (w_compact multi s srt W S R) J)), F. reflexivity.
Qed.
Example C33_case : reached odd_multi before9 /\ cnt before9 = 4%nat /\ length (fields_in_order before9) = 3%nat /\ jc before9 = 1 /\
  settled before9 /\ length (shown_entries (compactify srt_chunks before9)) = 3%nat.
Proof. split; [now_reach; vm_compute; reflexivity|]. split; [vm_compute; reflexivity|]. split; [vm_compute; reflexivity|]. split; [vm_compute; reflexivity|].
  split; [apply settled_dec; vm_compute; reflexivity|]. vm_compute. reflexivity. Qed.
Lemma hole_somewhere s : existsb (fun k => is_hole (idx s k)) (seq 0 (cnt s)) = true -> exists k,
  (k < cnt s)%nat /\ In (-1 - Z.of_nat k) (index_positions (cnt s)) /\ field s (RL k) = None /\ is_hole (idx s k) = true.
Proof.
  intros H. apply existsb_exists in H. destruct H as (k & Hk & H). exists k. apply in_seq in Hk as Hk2.
  split; [lia|]. split; [unfold index_positions; apply in_map_iff; exists k; split; [reflexivity|exact Hk]|]. split; [|exact H].
  apply field_dead. intros [_ X]. congruence.
Qed.
(** A removed field leaves a hole in the index, and the iterators show it as if it were a field. *)
Theorem C33_shows_holes_refuted : exists s k,
  reached odd_multi s /\ (k < cnt s)%nat /\ In (-1 - Z.of_nat k) (index_positions (cnt s)) /\
  field s (RL k) = None /\ is_hole (idx s k) = true.
Proof.
  destruct (hole_somewhere before9) as (k & H); [vm_compute; reflexivity|]. exists before9, k. split; [now_reach; vm_compute; reflexivity|exact H].
Qed.

(** ** Iteration over all fields: first the preplaced ones in the order of their places, then the
    index *)
(** the preplaced fields that hold a value *)
Definition present (s : schema) (null : Z -> Z -> bool) : list Z :=
  filter (fun t => negb (null (tag2offset t) t)) (firstn (Z.to_nat (npre s)) (toks s)).
Lemma firstn_tok s : table (toks s) (npre s) -> firstn (Z.to_nat (npre s)) (toks s) = map (fun i => tok (toks s) (Z.of_nat i)) (seq 0 (Z.to_nat (npre s))).
Proof.
  intros T. pose proof (npre_range s T) as N. unfold zlen in N. assert (H : (Z.to_nat (npre s) <= length (toks s))%nat) by lia.
  revert H. generalize (Z.to_nat (npre s)) as n. clear. induction (toks s) as [|x l IH]; intros n H.
  - cbn in H. replace n with 0%nat by lia. reflexivity.
  - destruct n as [|n]; [reflexivity|]. cbn [firstn seq map]. f_equal. rewrite IH by (cbn in H; lia). rewrite <- seq_shift, map_map.
    apply map_ext. intros i. unfold tok. rewrite !Nat2Z.id. reflexivity.
Qed.
Lemma from_present s null : orderly s -> from s null 0 (Z.to_nat (npre s)) = map tag2offset (present s null).
Proof.
  intros R. unfold from, present. rewrite (firstn_tok s (od_table s R)).
  induction (seq 0 (Z.to_nat (npre s))) as [|i l IH]; [reflexivity|]. cbn [map filter].
  change (alive s null i) with (negb (null (tag2offset (tok (toks s) (Z.of_nat i))) (tok (toks s) (Z.of_nat i)))).
  destruct (null _ _); cbn [negb map]; rewrite IH; reflexivity.
Qed.
Lemma sorted_app (A : Z -> Z -> Prop) l r : StronglySorted A l -> StronglySorted A r -> (forall x y, In x l -> In y r -> A x y) -> StronglySorted A (l ++ r).
Proof.
  intros S1 S2 H. induction S1 as [|a l S1 IH F]; [exact S2|]. cbn [app]. constructor.
  - apply IH. intros x y Hx Hy. apply H; [right|]; assumption.
  - apply Forall_app. split; [exact F|]. apply Forall_forall. intros y Hy. apply H; [left; reflexivity|exact Hy].
Qed.
Lemma sorted_seq (A : Z -> Z -> Prop) (g : nat -> Z) (al : nat -> bool) n : forall i,
  (forall a b, (i <= a < b)%nat -> (b < i + n)%nat -> A (g a) (g b)) -> StronglySorted A (map g (filter al (seq i n))).
Proof.
  induction n as [|n IH]; intros i H; cbn [seq filter map]; [constructor|].
  assert (Q : StronglySorted A (map g (filter al (seq (S i) n)))) by (apply IH; intros; apply H; lia).
  destruct (al i); [|exact Q]. cbn [map]. constructor; [exact Q|]. apply Forall_forall. intros x Hx. apply in_map_iff in Hx.
  destruct Hx as (k & <- & Hk). apply filter_In in Hk. destruct Hk as [Hk _]. apply in_seq in Hk. apply H; lia.
Qed.
Lemma visited_sorted s null n : orderly s -> StronglySorted (fun a b => it_lt a b = true) (visited s null n).
Proof.
  intros R. unfold visited. pose proof (od_bytes s R) as B. apply sorted_app.
  - unfold from. apply sorted_seq. intros a b H1 H2. pose proof (rise s null R a b ltac:(lia)) as Q.
    destruct (tok_facts s null R a ltac:(lia)) as (_ & _ & _ & Q1 & _). unfold it_lt, it_pos.
    replace (o s a >=? 0) with true by lia. replace (o s b >=? 0) with true by lia. lia.
  - unfold loose_positions. assert (E : seq 0 n = filter (fun _ => true) (seq 0 n)) by (induction (seq 0 n) as [|x l IH]; [reflexivity|cbn [filter]; congruence]).
    rewrite E. apply sorted_seq. intros a b H1 H2. unfold it_lt, it_pos. replace (_ >=? 0) with false by lia. replace (-4 * (Z.of_nat b + 1) >=? 0) with false by lia. lia.
  - intros x y Hx Hy. destruct (from_bound s null _ x (le_n _) Hx) as (i & Hi & ->). destruct (tok_facts s null R i Hi) as (_ & _ & _ & Q1 & Q2 & _).
    unfold loose_positions in Hy. apply in_map_iff in Hy. destruct Hy as (k & <- & _). unfold it_lt, it_pos. change max_tuple_bytes_netto with 262136.
    replace (o s i >=? 0) with true by lia. replace (_ >=? 0) with false by lia. lia.
Qed.
Theorem C33_all_fields_partial : forall ds s log null n,
  Forall wf_def ds -> Forall plain ds -> definitions empty_schema ds = Some (s, log) -> bytes_of s <= 16383 ->
  let rounds := (Z.to_nat (npre s) + n)%nat in let f := S (Z.to_nat (npre s)) in
  exists vis, walk rounds (it_inc s null f) (it_begin s null) (it_end (Z.of_nat n)) = Some vis /\
    back rounds (it_dec s null f) (it_end (Z.of_nat n)) (it_begin s null) = Some (rev vis) /\
    map (it_show s) vis = map (fun t => Some (SPre t)) (present s null) ++ map (fun k => Some (SLoose (Z.of_nat k))) (seq 0 n) /\
    NoDup vis /\ StronglySorted (fun a b => it_lt a b = true) vis.
Proof.
  intros ds s log null n W TM H B rounds f. pose proof (plain_orderly ds s log W TM H B) as R. pose proof (od_table s R) as T.
  exists (visited s null n). split; [apply forward, R|]. split; [apply backward, R|]. split; [|split].
  - unfold visited. rewrite map_app. f_equal.
    + rewrite (from_present s null R), map_map. apply map_ext_in. intros t Ht. unfold present in Ht. apply filter_In in Ht. destruct Ht as [Ht _].
      rewrite (firstn_tok s T) in Ht. apply in_map_iff in Ht. destruct Ht as (i & <- & Hi). apply in_seq in Hi.
      apply (show_pre s null R i). lia.
    + unfold loose_positions. rewrite map_map. apply map_ext. intros k. apply show_loose; assumption.
  - assert (S := visited_sorted s null n R). clear - S. induction S as [|a l S IH F]; constructor; [|exact IH].
    intros X. rewrite Forall_forall in F. specialize (F a X). unfold it_lt in F. lia.
  - apply visited_sorted, R.
Qed.
Lemma forallb_exists_false {A} (f : A -> bool) l : forallb f l = false -> exists x, In x l /\ f x = false.
Proof.
  induction l as [|a l IH]; [discriminate|]. cbn [forallb]. destruct (f a) eqn:E; [|exists a; cbn; auto].
  cbn [andb]. intros H. destruct (IH H) as (x & Hx & Ex). exists x. cbn; auto.
Qed.
(** With the bytes of a tuple: a preplaced field is shown exactly when the getter finds a value. *)
Theorem C33_present_fields : forall s m t, table (toks s) (npre s) -> In t (toks s) -> is_preplaced t = true ->
  4 <= tag2genus t <= 30 ->
  (In t (present s (field_null m)) <-> fixed_get (tag2genus t) (is_discernible_null t) m (tag2offset t) <> RAbsent).
Proof.
  intros s m t T I P G. unfold present. rewrite filter_In.
  assert (X : In t (firstn (Z.to_nat (npre s)) (toks s))).
  { rewrite (firstn_tok s T). destruct (in_tok _ _ I) as (i & Hi & Ei). apply in_map_iff. exists (Z.to_nat i). rewrite Z2Nat.id by lia. split; [exact Ei|].
    apply in_seq. destruct (Z_lt_ge_dec i (npre s)) as [|L]; [lia|exfalso].
    pose proof (tok_loose s T i ltac:(lia)) as Q. rewrite Ei in Q. congruence. }
  assert (F : is_fixed_size t = true).
  { pose proof (tag_parts _ (tb_range _ _ T t I)) as R. pose proof (tb_range _ _ T t I) as R2. unfold tagrange in R2. rewrite is_fixed_size_arith by lia. lia. }
  unfold field_null, fixed_get. replace (tag2genus t =? g_hole) with false by (unfold g_hole; lia). rewrite F. cbn [negb orb].
  destruct (is_discernible_null t && is_denil (tag2genus t) m (tag2offset t)); cbn [negb]; split; intros H; try (destruct H; congruence); try congruence.
  split; [exact X|reflexivity].
Qed.
(** A region of opaque bytes is shown when one of its bytes is not zero. *)
Theorem C33_present_regions : forall s m t, table (toks s) (npre s) -> In t (toks s) -> is_preplaced t = true -> tag2genus t = g_hole ->
  (In t (present s (field_null m)) <-> exists i, 0 <= i < tag2indysize t /\ m (tag2offset t + i) <> 0).
Proof.
  intros s m t T I P G. unfold present. rewrite filter_In.
  assert (X : In t (firstn (Z.to_nat (npre s)) (toks s))).
  { rewrite (firstn_tok s T). destruct (in_tok _ _ I) as (i & Hi & Ei). apply in_map_iff. exists (Z.to_nat i). rewrite Z2Nat.id by lia. split; [exact Ei|].
    apply in_seq. destruct (Z_lt_ge_dec i (npre s)) as [|L]; [lia|exfalso].
    pose proof (tok_loose s T i ltac:(lia)) as Q. rewrite Ei in Q. congruence. }
  unfold field_null. rewrite G, Z.eqb_refl, Bool.negb_true_iff. unfold pread. split.
  - intros [_ H]. destruct (forallb_exists_false _ _ H) as (b & Hb & Nb). apply in_map_iff in Hb. destruct Hb as (i & <- & Hi). apply in_seq in Hi.
    exists (Z.of_nat i). split; [lia|]. lia.
  - intros (i & Hi & Ni). split; [exact X|]. apply Bool.not_true_iff_false. rewrite forallb_forall. intros Q. apply Ni.
    specialize (Q (m (tag2offset t + i))). apply Z.eqb_eq, Q, in_map_iff. exists (Z.to_nat i). split; [f_equal; lia|apply in_seq; lia].
Qed.

(** a schema with four preplaced fields (two of them absent) and two loose ones *)
Example C33_fields_case :
  let ds := [DPreplaced (nm 97) g_u32 true false None; DPreplaced (nm 98) g_text true false None; DLoose (nm 99) g_u16 false false false;
             DPreplaced (nm 100) g_u8 false false None; DPreplaced (nm 101) g_i64 true false (Some [1; 0; 0; 0; 0; 0; 0; 0])] in
  Forall wf_def ds /\ Forall plain ds /\ bytes_of (after ds) = 20 /\ npre (after ds) = 4 /\
  map tag2offset (present (after ds) (field_null (image_bytes (after ds)))) = [8; 12] /\
  walk 6 (it_inc (after ds) (field_null (image_bytes (after ds))) 5) (it_begin (after ds) (field_null (image_bytes (after ds)))) (it_end 2) = Some [8; 12; -4; -8].
Proof.
  split; [apply wf_defsb_ok; vm_compute; reflexivity|]. split; [repeat constructor|]. vm_compute. repeat split.
Qed.
(** An opaque region has no size, so it shares its place with the next field; [++] then stays where it
    is for ever. *)
Theorem C33_no_end_refuted : exists ds, Forall wf_def ds /\
  it_begin (after ds) (fun _ _ => false) = 0 /\
  forall n rounds fuel, walk rounds (it_inc (after ds) (fun _ _ => false) (S fuel)) 0 (it_end n) = None \/ n = -1.
Proof.
  exists [DOpacity (nm 97) 16 0 (Some (repeat 7 16)); DPreplaced (nm 98) g_i64 false false None; DPreplaced (nm 99) g_u32 false false None].
  split; [apply wf_defsb_ok; vm_compute; reflexivity|]. split; [vm_compute; reflexivity|]. intros n rounds fuel.
  destruct (Z.eq_dec n (-1)) as [|N]; [right; assumption|left]. set (s := after _).
  assert (E : it_inc s (fun _ _ => false) (S fuel) 0 = Some 0).
  { unfold it_inc. change (0 >=? 0) with true. cbn [next_loop]. cbv zeta.
    assert (Q : (next_by_offset s 0 =? 0) || negb (is_preplaced (next_by_offset s 0)) = false) by (vm_compute; reflexivity). rewrite Q.
    assert (Q2 : tag2offset (next_by_offset s 0) = 0) by (vm_compute; reflexivity). rewrite Q2. reflexivity. }
  induction rounds as [|r IH]; cbn [walk]; replace (0 =? it_end n) with false by (unfold it_end; lia); [reflexivity|].
  rewrite E, IH. reflexivity.
Qed.
(** The first position is the beginning of the tuple even when the first field lies further on:
    what is shown there is no field. *)
Theorem C33_first_place_refuted : exists ds t, Forall wf_def ds /\
  In t (toks (after ds)) /\ is_preplaced t = true /\ tag2offset t = 4 /\
  it_begin (after ds) (fun _ _ => false) = 0 /\ it_show (after ds) 0 = None.
Proof.
  exists [DImport (nm 97) (tag_from_offset 4 g_u32 4 false false) None false], (tag_from_offset 4 g_u32 4 false false).
  split; [apply wf_defsb_ok; vm_compute; reflexivity|]. split; [vm_compute; auto|]. vm_compute. repeat split.
Qed.
(** With 16384 bytes of preplaced fields or more, stepping back from the index misses the last
    preplaced field. *)
Theorem C33_last_place_refuted : forall fuel,
  it_inc long_schema (fun _ _ => false) (S fuel) 16380 = Some first_loose /\
  it_dec long_schema (fun _ _ => false) (S fuel) first_loose = Some 0.
Proof.
  intros fuel. destruct C23_prev_wraps_refuted as (_ & _ & W). split.
  - unfold it_inc. change (16380 >=? 0) with true. cbn [next_loop]. cbv zeta. unfold next_by_offset. rewrite long_bytes.
    change ((16380 >=? 0) && (16380 <? 16444)) with true. cbv iota zeta.
    change (search_preplaced long_schema 16380) with (lower (fun t => t <? u32 (Z.shiftl 16380 offset_shift)) (toks long_schema) 0 2).
    cbn [toks npre long_schema]. vm_compute. reflexivity.
  - unfold it_dec. change (first_loose <? 0) with true. change (negb (first_loose + 4 =? 0)) with false. cbv iota. rewrite long_bytes. change (16444 =? 0) with false. cbv iota.
    cbn [prev_loop]. rewrite W. vm_compute. reflexivity.
Qed.
Print Assumptions C33_index_both_ways.
Print Assumptions C33_random_access.
Print Assumptions C33_postfix_refuted.
Print Assumptions C33_visits_every_field.
Print Assumptions C33_only_fields_partial.
Print Assumptions C33_compacted.
Print Assumptions C33_shows_holes_refuted.
Print Assumptions C33_all_fields_partial.
Print Assumptions C33_present_fields.
Print Assumptions C33_present_regions.
Print Assumptions C33_no_end_refuted.
Print Assumptions C33_first_place_refuted.
Print Assumptions C33_last_place_refuted.

(** * PropertiesTokens: C84, comparing tokens and meeting fields by their tokens. *)
From Verif Require Import Base Tag TagProofs Codec Gear GearBase GearSearch GearProofs Tuple TupleProofs TupleSteps TupleView TupleOps TupleMore
  TupleHist TupleFacts PropertiesTuple GearOpt GearOptProofs GearSortProofs PropertiesOpt Audit Schema SchemaProofs PropertiesSchema
  Iterators IteratorsProofs PropertiesIterators Tokens.
From Coq Require Import ZifyBool ZifyNat Sorted Permutation.
Ltac Zify.zify_post_hook ::= Z.div_mod_to_equations.

(** ** Tokens among themselves *)
(** Two tokens are the same when they differ in nothing but their flags. *)
Definition denote_same (a b : Z) : Prop :=
  if is_preplaced a then is_preplaced b = true /\ tag2offset a = tag2offset b /\ tag2genus a = tag2genus b /\ tag2indysize a = tag2indysize b
  else is_preplaced b = false /\ tag2genus a = tag2genus b /\ tag2id a = tag2id b.
Lemma same_iff a b : tagrange a -> tagrange b -> (normalize_tag a = normalize_tag b <-> denote_same a b).
Proof.
  intros Ra Rb. pose proof (key_bounds a Ra) as Ka. pose proof (key_bounds b Rb) as Kb. pose proof (tag_parts a Ra) as Pa. pose proof (tag_parts b Rb) as Pb.
  rewrite (key_split a Ra), (key_split b Rb) in *. unfold denote_same. destruct (is_preplaced a), (is_preplaced b); lia.
Qed.
Theorem C84_same_field : forall a b, tagrange a -> tagrange b -> (tag_same a b = true <-> denote_same a b).
Proof. intros a b Ra Rb. rewrite <- (same_iff a b Ra Rb). unfold tag_same. lia. Qed.
(** The order is strict, weak and total; the tokens that it does not tell apart are those of the same
    field; the four comparisons agree. *)
Theorem C84_order : forall a b c, tagrange a -> tagrange b ->
  tok_lt a a = false /\ (tok_lt a b = true -> tok_lt b c = true -> tok_lt a c = true) /\
  (tok_lt a b = false -> tok_lt b c = false -> tok_lt a c = false) /\
  (tok_lt a b = false /\ tok_lt b a = false <-> denote_same a b) /\
  (tok_le a b = true <-> tok_lt a b = true \/ denote_same a b) /\
  tok_gt a b = tok_lt b a /\ tok_ge a b = tok_le b a.
Proof.
  intros a b c Ra Rb. rewrite <- (same_iff a b Ra Rb). unfold tok_le, tok_ge, tok_gt, tok_lt, tag_less.
  repeat split; try (intros; lia).
Qed.
(** Preplaced fields come first, in the order of their places. *)
Theorem C84_order_of_places : forall a b, tagrange a -> tagrange b -> is_preplaced a = true ->
  (is_preplaced b = false -> tok_lt a b = true) /\ (is_preplaced b = true -> tag2offset a < tag2offset b -> tok_lt a b = true).
Proof.
  intros a b Ra Rb Pa. pose proof (key_bounds a Ra) as Ka. pose proof (key_bounds b Rb) as Kb. pose proof (tag_parts a Ra) as A. pose proof (tag_parts b Rb) as B.
  unfold tok_lt, tag_less. split; intros Pb; rewrite Pa, Pb in *; [lia|]. rewrite (key_split a Ra), (key_split b Rb), Pa, Pb. lia.
Qed.
(** The hash does not collide: it is the same for the tokens of the same field and for no others. *)
Lemma xorshift_inj x y : 0 <= x -> 0 <= y -> Z.lxor x (Z.shiftr x 19) = Z.lxor y (Z.shiftr y 19) -> x = y.
Proof.
  intros Hx Hy H. apply Z.lxor_eq. set (d := Z.lxor x y).
  assert (D : Z.lxor d (Z.shiftr d 19) = 0).
  { unfold d. rewrite Z.shiftr_lxor.
    replace (Z.lxor (Z.lxor x y) (Z.lxor (Z.shiftr x 19) (Z.shiftr y 19)))
      with (Z.lxor (Z.lxor x (Z.shiftr x 19)) (Z.lxor y (Z.shiftr y 19))).
    - rewrite H. apply Z.lxor_nilpotent.
    - rewrite !Z.lxor_assoc. f_equal. rewrite <- !Z.lxor_assoc. f_equal. apply Z.lxor_comm. }
  apply Z.lxor_eq in D. assert (0 <= d) by (apply Z.lxor_nonneg; lia). rewrite Z.shiftr_div_pow2 in D by lia. change (2 ^ 19) with 524288 in D. lia.
Qed.
Lemma key_range t : tagrange t -> 0 <= normalize_tag t < 2 ^ 32.
Proof. intros R. pose proof (key_bounds t R) as K. destruct (is_preplaced t); lia. Qed.
Theorem C84_hash_perfect : forall a b, tagrange a -> tagrange b -> (tok_hash a = tok_hash b <-> denote_same a b).
Proof.
  intros a b Ra Rb. rewrite <- (same_iff a b Ra Rb). unfold tok_hash. cbv zeta. pose proof (key_range a Ra) as Ka. pose proof (key_range b Rb) as Kb.
  change (2 ^ 32) with 4294967296 in *. split; [|intros ->; reflexivity]. intros H. unfold u64 in H. change (2 ^ 64) with 18446744073709551616 in H.
  rewrite !Z.mod_small in H by lia. apply xorshift_inj in H; lia.
Qed.
(** [a <= b] and [b <= a] leave [a == b] open: == sees the flags. *)
Theorem C84_antisymmetry_refuted : exists a b, token_loose g_u32 7 false false false = Some a /\ token_loose g_u32 7 false true false = Some b /\
  tok_le a b = true /\ tok_le b a = true /\ tok_eq a b = false /\ tok_hash a = tok_hash b.
Proof. eexists _, _. split; [reflexivity|]. split; [reflexivity|]. vm_compute. repeat split. Qed.
(** Between the tokens of one schema the order and == agree. *)
Theorem C84_schema_order : forall ds s log a b, Forall wf_def ds -> definitions empty_schema ds = Some (s, log) -> In a (toks s) -> In b (toks s) ->
  (tok_eq a b = true <-> denote_same a b) /\ (tok_ne a b = true <-> ~ denote_same a b) /\ (tok_le a b = true -> tok_le b a = true -> a = b) /\ (a <> b -> tok_lt a b = true \/ tok_lt b a = true).
Proof.
  intros ds s log a b W H Ia Ib. pose proof (C23_tables_sorted ds s log W H) as T.
  assert (Q : normalize_tag a = normalize_tag b -> a = b).
  { intros E. pose proof (tb_sort _ _ T) as So. clear - So Ia Ib E. induction So as [|x l So IH F]; [destruct Ia|]. rewrite Forall_forall in F. unfold klt in F.
    destruct Ia as [->|Ia], Ib as [->|Ib]; [reflexivity| | |auto].
    - specialize (F b Ib). lia.
    - specialize (F a Ia). lia. }
  rewrite <- (same_iff a b (tb_range _ _ T a Ia) (tb_range _ _ T b Ib)). unfold tok_ne, tok_eq, tok_le, tok_gt, tok_lt, tag_less. split; [split|split; [split|split]].
  - intros E. f_equal. lia.
  - intros E. rewrite (Q E). apply Z.eqb_refl.
  - intros N E. rewrite (Q E), Z.eqb_refl in N. discriminate.
  - intros N. destruct (a =? b) eqn:E; [|reflexivity]. exfalso. apply N. f_equal. lia.
  - intros. apply Q. lia.
  - intros N. destruct (Z.lt_trichotomy (normalize_tag a) (normalize_tag b)) as [|[E|]]; [lia|exfalso; auto|lia].
Qed.

(** ** Iterators and tokens *)
Lemma plain_parts desc : 0 <= desc < 2 ^ 16 -> tagrange (loose_plain desc) /\ is_preplaced (loose_plain desc) = false /\ u16 (loose_plain desc) = desc.
Proof.
  intros H. change (2 ^ 16) with 65536 in H. assert (E : loose_plain desc = 0xFFF80000 + desc).
  { unfold loose_plain, make_tag_desc, u32. cbn [flag]. rewrite loose_threshold_val. change (2 ^ 32) with 4294967296. lia. }
  rewrite E. unfold tagrange, is_preplaced, u16. rewrite loose_threshold_val. change (2 ^ 32) with 4294967296. change (2 ^ 16) with 65536. lia.
Qed.
Lemma loose_not t : is_loose t = negb (is_preplaced t).
Proof. unfold is_loose, is_preplaced. lia. Qed.
Lemma loose_same a b : tagrange a -> tagrange b -> is_preplaced a = false -> is_preplaced b = false -> (denote_same a b <-> u16 a = u16 b).
Proof.
  intros Ra Rb Pa Pb. unfold denote_same. rewrite Pa, Pb. unfold u16. rewrite !tag2genus_arith, !tag2id_arith. unfold tagrange in *. lia.
Qed.
Lemma offset_place s t : orderly s -> In t (toks s) -> is_preplaced t = true -> tag2offset t >= 0 /\ preplaced_token (Some s) (tag2offset t) = Some t.
Proof.
  intros R It P. pose proof (od_table s R) as T. destruct (in_tok _ _ It) as (i & Hi & Ei). destruct (Z_lt_ge_dec i (npre s)) as [L|L].
  - pose proof (show_pre s (fun _ _ => false) R (Z.to_nat i) ltac:(lia)) as Q. unfold o in Q. rewrite Z2Nat.id in Q by lia. rewrite Ei in Q.
    pose proof (tag_parts t (tb_range _ _ T t It)) as TP. split; [lia|]. unfold it_show in Q. replace (tag2offset t >=? 0) with true in Q by lia.
    unfold preplaced_token. cbv zeta in *. destruct (by_offset s (tag2offset t) =? 0); [discriminate|]. congruence.
  - exfalso. pose proof (tok_loose s T i ltac:(lia)) as Q. rewrite Ei in Q. congruence.
Qed.

(** On an entry of the index both iterators look at the type and the number only. *)
Theorem C84_loose_iterator : forall desc t, 0 <= desc < 2 ^ 16 -> tagrange t ->
  (loose_is desc t = true <-> denote_same (loose_plain desc) t) /\
  forall s f k, f k = desc -> field_is s f (-4 * (Z.of_nat k + 1)) t = Some (loose_is desc t).
Proof.
  intros desc t H R. destruct (plain_parts desc H) as (R' & P' & U). split.
  - unfold loose_is. rewrite loose_not. destruct (is_preplaced t) eqn:P; cbn [negb andb].
    + split; [discriminate|]. unfold denote_same. rewrite P'. intros [Q _]. congruence.
    + rewrite (loose_same _ t R' R P' P), U. lia.
  - intros s f k E. unfold field_is. replace (_ >=? 0) with false by lia. unfold entry_of. replace (Z.to_nat _) with k by lia. rewrite E. reflexivity.
Qed.
(** On a preplaced field the iterator equals the token of the definition and no other. *)
Theorem C84_preplaced_iterator : forall ds s log f t u,
  Forall wf_def ds -> Forall plain ds -> definitions empty_schema ds = Some (s, log) -> bytes_of s <= 16383 ->
  In t (toks s) -> is_preplaced t = true -> (field_is (Some s) f (tag2offset t) u = Some true <-> u = t).
Proof.
  intros ds s log f t u W TM H B It P. pose proof (plain_orderly ds s log W TM H B) as R. destruct (offset_place s t R It P) as [G E].
  unfold field_is. replace (tag2offset t >=? 0) with true by lia. rewrite E. unfold tok_eq. split.
  - destruct (is_preplaced u); [|discriminate]. intros Q. injection Q as Q. lia.
  - intros ->. rewrite P, Z.eqb_refl. reflexivity.
Qed.
(** So a token asked for with other attributes than those of the definition denotes the field, reads
    it and writes it, but the iterator standing on the field does not equal it; for loose fields it
    does. *)
Theorem C84_attributes_refuted : forall ds s log n t di sa f,
  Forall wf_def ds -> Forall plain ds -> definitions empty_schema ds = Some (s, log) -> bytes_of s <= 16383 -> In (n, t) log ->
  let u := get_token s n di sa in
  denote_same t u /\
  (is_preplaced t = true -> u <> t -> field_is (Some s) f (tag2offset t) u = Some false) /\
  (is_preplaced t = false -> forall k, f k = u16 t -> field_is (Some s) f (-4 * (Z.of_nat k + 1)) u = Some true).
Proof.
  intros ds s log n t di sa f W TM H B In_ u. pose proof (reached_schema _ _ _ W H) as I. pose proof (plain_orderly ds s log W TM H B) as R.
  assert (It : In t (toks s)). { apply (Permutation_in _ (Permutation_sym (si_perm _ _ I))). apply in_map_iff. exists (n, t). auto. }
  pose proof (tb_range _ _ (si_table _ _ I) t It) as Rt. destruct (C22_lookup_attributes ds s log n t di sa W H In_) as [E _]. fold u in E.
  assert (K : tagrange u /\ normalize_tag t = normalize_tag u).
  { rewrite E. destruct di as [b1|], sa as [b2|]; cbn [enforce].
    - destruct (enforce_null_keeps t b1 Rt) as (R1 & E1). destruct (enforce_sat_keeps _ b2 R1) as (R2 & E2). split; [exact R2|congruence].
    - destruct (enforce_null_keeps t b1 Rt) as (R1 & E1). split; [exact R1|congruence].
    - destruct (enforce_sat_keeps t b2 Rt) as (R1 & E1). split; [exact R1|congruence].
    - auto. }
  destruct K as [Ru K]. apply (same_iff t u Rt Ru) in K. split; [exact K|]. split.
  - intros P N. destruct (offset_place s t R It P) as [G Eo]. unfold field_is. replace (tag2offset t >=? 0) with true by lia. rewrite Eo.
    unfold denote_same in K. rewrite P in K. destruct K as [Pu _]. rewrite Pu. unfold tok_eq. f_equal. lia.
  - intros P k Ek. assert (U : 0 <= u16 t < 2 ^ 16) by (unfold u16; lia). destruct (C84_loose_iterator (u16 t) u U Ru) as [L F]. rewrite (F (Some s) f k Ek). f_equal.
    apply L. destruct (plain_parts (u16 t) U) as (R' & P' & U'). pose proof K as K2. unfold denote_same in K2. rewrite P in K2. destruct K2 as [Pu _].
    apply (loose_same _ u R' Ru P' Pu). rewrite U'. apply (loose_same t u Rt Ru P Pu). exact K.
Qed.

(** Every field an iteration meets knows its token, and it is the only one of the schema that the
    iterator equals. *)
Theorem C84_own_token : forall ds s log null n f,
  Forall wf_def ds -> Forall plain ds -> definitions empty_schema ds = Some (s, log) -> bytes_of s <= 16383 ->
  (forall k, (k < n)%nat -> exists t, In t (toks s) /\ is_preplaced t = false /\ u16 t = f k) ->
  exists vis, Iterators.walk (Z.to_nat (npre s) + n) (it_inc s null (S (Z.to_nat (npre s)))) (it_begin s null) (it_end (Z.of_nat n)) = Some vis /\
    Forall (fun p => exists t, field_token (Some s) f p = Some t /\ In t (toks s) /\ field_is (Some s) f p t = Some true /\
                     forall u, In u (toks s) -> field_is (Some s) f p u = Some true -> u = t) vis.
Proof.
  intros ds s log null n f W TM H B K. pose proof (plain_orderly ds s log W TM H B) as R. pose proof (od_table s R) as T.
  exists (visited s null n). split; [apply forward, R|]. unfold visited. apply Forall_app. split.
  - rewrite (from_present s null R). apply Forall_forall. intros p Hp. apply in_map_iff in Hp. destruct Hp as (t & <- & Ht).
    unfold present in Ht. apply filter_In in Ht. destruct Ht as [Ht _]. rewrite (firstn_tok s T) in Ht. apply in_map_iff in Ht. destruct Ht as (i & <- & Hi). apply in_seq in Hi.
    destruct (tok_facts s null R i ltac:(lia)) as (It & P & _). cbv zeta in It, P. set (t := tok (toks s) (Z.of_nat i)) in *.
    pose proof (fun u => C84_preplaced_iterator ds s log f t u W TM H B It P) as Q. destruct (offset_place s t R It P) as [G E].
    exists t. split; [unfold field_token; replace (tag2offset t >=? 0) with true by lia; exact E|]. split; [exact It|]. split; [apply Q; reflexivity|].
    intros u _ Hu. apply Q, Hu.
  - unfold loose_positions. apply Forall_forall. intros p Hp. apply in_map_iff in Hp. destruct Hp as (k & <- & Hk). apply in_seq in Hk.
    destruct (K k ltac:(lia)) as (t & It & P & Ut). pose proof (tb_range _ _ T t It) as Rt.
    assert (U : 0 <= f k < 2 ^ 16) by (rewrite <- Ut; unfold u16; lia).
    assert (One : forall u, In u (toks s) -> is_loose u = true -> u16 u = f k -> u = t).
    { intros u Iu Lu Eu. rewrite loose_not, Bool.negb_true_iff in Lu. pose proof (tb_range _ _ T u Iu) as Ru.
      apply (C84_schema_order ds s log u t W H Iu It).
      - unfold tok_le, tok_gt, tok_lt, tag_less. replace (normalize_tag t) with (normalize_tag u); [lia|]. apply (same_iff u t Ru Rt). apply (loose_same u t Ru Rt Lu P). congruence.
      - unfold tok_le, tok_gt, tok_lt, tag_less. replace (normalize_tag t) with (normalize_tag u); [lia|]. apply (same_iff u t Ru Rt). apply (loose_same u t Ru Rt Lu P). congruence. }
    exists t. split; [|split; [exact It|split]].
    + unfold field_token. replace (_ >=? 0) with false by lia. unfold entry_of. replace (Z.to_nat _) with k by lia. unfold loose_token.
      rewrite (C23_by_loose s (f k) T U). unfold linear_loose. cbv zeta.
      destruct (find (fun x => is_loose x && (tag2genus_and_id x =? f k)) (toks s)) as [u|] eqn:F.
      * apply find_some in F. destruct F as [Iu F]. apply andb_prop in F. destruct F as [F1 F2]. rewrite (One u Iu F1) by (unfold tag2genus_and_id in F2; lia).
        cbn [orz]. assert (t <> 0). { intros ->. vm_compute in P. discriminate. } replace (t =? 0) with false by lia. reflexivity.
      * exfalso. pose proof (find_none _ _ F t It) as Q. cbv beta in Q. rewrite loose_not, P in Q. unfold tag2genus_and_id in Q. lia.
    + unfold field_is. replace (_ >=? 0) with false by lia. unfold entry_of. replace (Z.to_nat _) with k by lia. rewrite loose_not, P. unfold tag2genus_and_id. rewrite Ut, Z.eqb_refl. reflexivity.
    + intros u Iu Hu. unfold field_is in Hu. replace (_ >=? 0) with false in Hu by lia. unfold entry_of in Hu. replace (Z.to_nat _) with k in Hu by lia.
      injection Hu as Hu. apply andb_prop in Hu. destruct Hu as [H1 H2]. apply One; [exact Iu|exact H1|]. unfold tag2genus_and_id in H2. lia.
Qed.

(** ** Looking a field up by walking over the index *)
Lemma collect_filter s desc n : collect_from s desc n = rev (filter (fun k => gid (idx s k) =? desc) (seq 0 n)).
Proof.
  induction n as [|n IH]; [reflexivity|]. rewrite seq_S, filter_app, rev_app_distr, <- IH. cbn [collect_from filter Nat.add].
  destruct (gid (idx s n) =? desc); reflexivity.
Qed.
Lemma find_filter {A} (p : A -> bool) l : find p l = match filter p l with [] => None | x :: _ => Some x end.
Proof. induction l as [|x l IH]; [reflexivity|]. cbn [find filter]. destruct (p x); [reflexivity|exact IH]. Qed.
Lemma last_rev {A} (l : list A) d : last (rev l) d = match l with [] => d | x :: _ => x end.
Proof. destruct l as [|x l]; [reflexivity|]. cbn [rev]. apply last_last. Qed.
Lemma find_collect s t : is_loose t = true -> find_loose s t = match collect s (u16 t) with [] => None | x :: l => Some (last (x :: l) x) end.
Proof.
  intros L. unfold find_loose. rewrite (find_filter (fun k => loose_is (gid (idx s k)) t)). unfold collect. rewrite collect_filter.
  assert (E : filter (fun k => loose_is (gid (idx s k)) t) (seq 0 (cnt s)) = filter (fun k => gid (idx s k) =? u16 t) (seq 0 (cnt s))).
  { apply filter_ext. intros k. unfold loose_is. rewrite L. reflexivity. }
  rewrite E. set (l := filter _ _). pose proof (last_rev l) as Q. destruct (rev l) as [|x r] eqn:Er.
  - destruct l as [|y l']; [reflexivity|]. cbn [rev] in Er. destruct (rev l'); discriminate.
  - specialize (Q x). rewrite Q. destruct l as [|y l']; [discriminate|]. reflexivity.
Qed.
(** A search over the index with a token finds an entry exactly when the tuple says that the field is
    present, and the entry holds the field; a field that does not repeat is found where the getter finds
    it. *)
Theorem C84_search : forall multi s t, worked multi s -> is_loose t = true -> real_desc (u16 t) ->
  (find_loose s t <> None <-> have_loose s t = true) /\
  (forall k, find_loose s t = Some k -> exists p, field s (RL k) = Some (u16 t, p)) /\
  (multi (u16 t) = false -> find_loose s t = lookup_gid s (u16 t)) /\
  (forall k, find_loose s t = Some k -> exists l, view s (u16 t) = l ++ [value s (RL k)]).
Proof.
  intros multi s t W L D. destruct (worked_inv multi s W) as [T U]. rewrite (find_collect s t L). split; [|split; [|split]].
  - unfold have_loose, exist_loose. rewrite lookup_collect. destruct (collect s (u16 t)) as [|x l]; cbn [first negb]; destruct (is_loose_collection t); intuition congruence.
  - intros k E. assert (I : In k (collect s (u16 t))).
    { destruct (collect s (u16 t)) as [|x l]; [discriminate|]. assert (Hk : k = last (x :: l) x) by congruence. clear E. subst k. destruct (exists_last (l := x :: l)) as (l' & z & Ez); [discriminate|].
      rewrite Ez, last_last. apply in_or_app. right. left. reflexivity. }
    unfold collect in I. rewrite collect_filter in I. apply in_rev in I. apply filter_In in I. destruct I as [I1 I2]. apply in_seq in I1.
    assert (G : gid (idx s k) = u16 t) by lia. assert (Lv : live s (RL k)). { split; [lia|]. apply (real_gid _ (u16 t) D G). }
    exists (value s (RL k)). rewrite (field_live _ _ Lv). unfold rdesc. rewrite G. reflexivity.
  - intros M. specialize (U (u16 t) D M). unfold view in U. rewrite map_length in U. rewrite lookup_collect. destruct (collect s (u16 t)) as [|x [|y l]]; [reflexivity|reflexivity|cbn in U; lia].
  - intros k E. unfold view. destruct (collect s (u16 t)) as [|x l]; [discriminate|]. assert (Hk : k = last (x :: l) x) by congruence. clear E. subst k. destruct (exists_last (l := x :: l)) as (l' & z & Ez); [discriminate|].
    rewrite Ez, last_last, map_app. exists (map (fun k => value s (RL k)) l'). reflexivity.
Qed.
(** Of a collection it finds the oldest member, the getter reads the newest. *)
Definition two_members : st := final (new_tuple 60 6) [OAppend (fd g_u32 3) true (blob 1 7); OAppend (fd g_u32 3) true (blob 1 8)].
Theorem C84_oldest_refuted : exists s t, reached odd_multi s /\ is_loose_collection t = true /\
  find_loose s t = Some 0%nat /\ lookup_gid s (u16 t) = Some 1%nat /\ value s (RL 0) <> value s (RL 1).
Proof.
  exists two_members, (make_tag g_u32 3 true true false). split; [unfold two_members; now_reach|]. split; [vm_compute; reflexivity|].
  split; [vm_compute; reflexivity|]. split; [vm_compute; reflexivity|]. vm_compute. discriminate.
Qed.

(** ** Holes.  An iteration meets the holes of the index; no token equals the iterator there, and asking
    for its token throws, whatever the schema. *)
Definition no_hole_token (s : schema) : Prop := forall t, In t (toks s) -> is_preplaced t = false -> tag2genus t <> g_hole.
Lemma hole_gid e t : is_hole e = true -> loose_is (gid e) t = true -> tag2genus t = g_hole.
Proof.
  rewrite is_hole_arith, tag2genus_arith. unfold loose_is. rewrite loose_not. intros H L. apply andb_prop in L. destruct L as [P L].
  unfold u16 in L. change (2 ^ 16) with 65536 in *. change (2 ^ 11) with 2048. change g_hole with 31. lia.
Qed.
Theorem C84_holes_have_no_token_refuted : forall ds s log m k,
  Forall wf_def ds -> definitions empty_schema ds = Some (s, log) -> no_hole_token s ->
  TInv m -> (k < cnt m)%nat -> is_hole (idx m k) = true ->
  field_token (Some s) (fun i => gid (idx m i)) (-4 * (Z.of_nat k + 1)) = None /\
  loose_token (Some s) (gid (idx m k)) = None /\
  forall g id c d sa t, token_loose g id c d sa = Some t -> 0 <= g -> 0 <= id -> loose_is (gid (idx m k)) t = false.
Proof.
  intros ds s log m k W H NH T Hk Hh. pose proof (C23_tables_sorted ds s log W H) as Tb.
  assert (G : 0 <= gid (idx m k) < 2 ^ 16). { pose proof (i_ent _ _ _ _ _ _ (v_acc _ _ (t_inv _ T)) k Hk) as (_ & Q & _). lia. }
  assert (Lt : loose_token (Some s) (gid (idx m k)) = None).
  { unfold loose_token. rewrite (C23_by_loose s _ Tb G). unfold linear_loose. cbv zeta.
    destruct (find (fun x => is_loose x && (tag2genus_and_id x =? gid (idx m k))) (toks s)) as [u|] eqn:F; [|reflexivity].
    exfalso. apply find_some in F. destruct F as [Iu F]. apply (NH u Iu).
    - apply andb_prop in F. destruct F as [F _]. rewrite loose_not in F. destruct (is_preplaced u); [discriminate|reflexivity].
    - apply (hole_gid (idx m k) u Hh). unfold loose_is. rewrite Z.eqb_sym in F. exact F. }
  split; [|split; [exact Lt|]].
  - unfold field_token. replace (_ >=? 0) with false by lia. unfold entry_of. replace (Z.to_nat _) with k by lia. exact Lt.
  - intros g id c d sa t Ht Hg Hi. destruct (loose_is (gid (idx m k)) t) eqn:E; [|reflexivity]. exfalso.
    destruct (token_loose_fields _ _ _ _ _ _ Ht Hg Hi) as (_ & _ & Gn & _). pose proof (hole_gid _ t Hh E) as Q.
    unfold token_loose in Ht. change g_hole with 31 in *. destruct (g >=? 31) eqn:Eg; [discriminate|]. lia.
Qed.

(** ** Cases *)
Definition token_defs : list def :=
  [DPreplaced (nm 97) g_u8 false false None; DPreplaced (nm 101) g_i64 true true (Some [1; 2; 3; 4; 5; 6; 7; 8]);
   DLoose (nm 99) g_u32 false false false; DLoose (nm 100) g_u32 true true true; DPreplaced (nm 98) g_text true false None].
Definition tokens_ : schema := after token_defs.
Example C84_schema_case : Forall wf_def token_defs /\ Forall plain token_defs /\ definitions empty_schema token_defs = Some (tokens_, log_of token_defs) /\
  bytes_of tokens_ <= 16383 /\ npre tokens_ = 3 /\ length (toks tokens_) = 5%nat /\
  forallb (fun t => is_preplaced t || negb (tag2genus t =? g_hole)) (toks tokens_) = true.
Proof.
  split; [apply wf_defsb_ok; vm_compute; reflexivity|]. split; [repeat constructor; vm_compute; try reflexivity; try discriminate; intros; discriminate|].
  split; [vm_compute; reflexivity|]. split; [vm_compute; discriminate|]. vm_compute. repeat split.
Qed.
Example C84_iterator_case : let t := nth 1 (toks tokens_) 0 in let u := get_token tokens_ (nm 101) (Some false) None in
  is_preplaced t = true /\ In (nm 101, t) (log_of token_defs) /\ u <> t /\ tag_same t u = true /\
  field_is (Some tokens_) (fun _ => 0) (tag2offset t) t = Some true /\ field_is (Some tokens_) (fun _ => 0) (tag2offset t) u = Some false /\
  is_preplaced (get_token tokens_ (nm 99) None None) = false /\
  field_is (Some tokens_) (fun _ => u16 (get_token tokens_ (nm 99) None None)) (-4) (get_token tokens_ (nm 99) (Some true) (Some true)) = Some true.
Proof. vm_compute. repeat split; try discriminate. auto. Qed.
Example C84_hole_case : reached odd_multi before9 /\ (1 < cnt before9)%nat /\ is_hole (idx before9 1) = true.
Proof. split; [unfold before9; now_reach|]. split; [vm_compute; lia|]. vm_compute. reflexivity. Qed.
Example C84_search_case : worked odd_multi before9 /\ let t := make_tag_desc (gid (idx before9 2)) false true false in
  is_loose t = true /\ real_desc (u16 t) /\ find_loose before9 t = Some 2%nat /\ have_loose before9 t = true.
Proof. split; [apply w_reached; unfold before9; now_reach|]. vm_compute. repeat split; discriminate. Qed.
Example C84_order_case : let a := nth 0 (toks tokens_) 0 in let b := nth 2 (toks tokens_) 0 in let c := nth 4 (toks tokens_) 0 in
  tok_lt a b = true /\ tok_lt b c = true /\ tok_lt a c = true /\ tok_hash a <> tok_hash b /\ is_preplaced b = true /\ is_preplaced c = false.
Proof. vm_compute. repeat split; discriminate. Qed.

Print Assumptions C84_same_field.
Print Assumptions C84_order.
Print Assumptions C84_order_of_places.
Print Assumptions C84_hash_perfect.
Print Assumptions C84_antisymmetry_refuted.
Print Assumptions C84_schema_order.
Print Assumptions C84_loose_iterator.
Print Assumptions C84_preplaced_iterator.
Print Assumptions C84_attributes_refuted.
Print Assumptions C84_own_token.
Print Assumptions C84_search.
Print Assumptions C84_oldest_refuted.
Print Assumptions C84_holes_have_no_token_refuted.

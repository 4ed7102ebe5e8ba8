(** * Proofs about the schema. *)
From Verif Require Import Base Tag TagProofs Gear Tuple TupleMore Schema.
From Coq Require Import ZifyBool ZifyNat Permutation Sorted.
Ltac Zify.zify_post_hook ::= Z.div_mod_to_equations.

Definition tagrange (t : Z) : Prop := 0 <= t < 2 ^ 32.

(** ** The key of the order *)
Lemma key_split t :
  tagrange t ->
  normalize_tag t =
    if is_preplaced t then tag2offset t * 2 ^ 18 + 3 * 2 ^ 16 + tag2genus t * 2048 + tag2indysize t
    else 0xFFFF0000 + tag2genus t * 2048 + tag2id t.
Proof.
  intros H. unfold tagrange in H. unfold is_preplaced. rewrite tag2offset_arith, tag2genus_arith,
    tag2indysize_arith, tag2id_arith.
  destruct (t <? loose_threshold) eqn:E.
  - rewrite normalize_preplaced by lia. lia.
  - rewrite normalize_loose by lia. lia.
Qed.
Lemma tag_parts t : tagrange t ->
  0 <= tag2genus t <= 31 /\ 0 <= tag2id t <= 2047 /\ 0 <= tag2indysize t <= 2047 /\
  0 <= tag2offset t <= 16383 /\ (is_preplaced t = true -> tag2offset t <= 16381).
Proof.
  unfold tagrange, is_preplaced. rewrite tag2offset_arith, tag2genus_arith, tag2indysize_arith, tag2id_arith.
  rewrite loose_threshold_val. intros H. repeat split; try lia.
Qed.
Lemma key_bounds t : tagrange t ->
  if is_preplaced t then 0 <= normalize_tag t < 16382 * 2 ^ 18
  else 0xFFFF0000 <= normalize_tag t < 2 ^ 32.
Proof.
  intros H. rewrite (key_split t H). pose proof (tag_parts t H) as (A & B & C & D & E).
  destruct (is_preplaced t); [specialize (E eq_refl)|]; lia.
Qed.

Lemma name_eqb_eq a b : name_eqb a b = true <-> a = b.
Proof. unfold name_eqb. destruct (list_eq_dec Z.eq_dec a b); split; intros; congruence. Qed.

(** ** Sorting *)
Definition klt (a b : Z) : Prop := normalize_tag a < normalize_tag b.
Definition kle (a b : Z) : Prop := normalize_tag a <= normalize_tag b.

Lemma insert_perm t l : Permutation (t :: l) (insert_token t l).
Proof.
  induction l as [|x r IH]; cbn; [reflexivity|].
  destruct (tag_less x t); [|reflexivity].
  rewrite perm_swap. apply perm_skip, IH.
Qed.
Lemma sort_perm l : Permutation l (sort_tokens l).
Proof.
  induction l as [|x r IH]; cbn; [reflexivity|].
  rewrite <- insert_perm. apply perm_skip, IH.
Qed.
Lemma insert_sorted t l : StronglySorted kle l -> StronglySorted kle (insert_token t l).
Proof.
  induction l as [|x r IH]; cbn; intros S.
  - constructor; [constructor|constructor].
  - inversion S as [|? ? S' F]; subst.
    destruct (tag_less x t) eqn:E; unfold tag_less in E.
    + constructor; [apply IH, S'|].
      rewrite Forall_forall in *. intros y Hy.
      apply (Permutation_in y (Permutation_sym (insert_perm t r))) in Hy.
      destruct Hy as [<-|Hy]; [unfold kle; lia|apply F, Hy].
    + constructor; [exact S|].
      rewrite Forall_forall in *. intros y [<-|Hy]; [unfold kle; lia|].
      specialize (F y Hy). unfold kle in *. lia.
Qed.
Lemma sort_sorted l : StronglySorted kle (sort_tokens l).
Proof. induction l as [|x r IH]; cbn; [constructor|]. apply insert_sorted, IH. Qed.
Lemma strict l : StronglySorted kle l -> NoDup (map normalize_tag l) -> StronglySorted klt l.
Proof.
  induction l as [|x r IH]; intros S N; [constructor|].
  inversion S as [|? ? S' F]; subst. cbn in N. inversion N as [|? ? N1 N2]; subst.
  constructor; [apply IH; assumption|].
  rewrite Forall_forall in *. intros y Hy. specialize (F y Hy). unfold kle, klt in *.
  assert (normalize_tag x <> normalize_tag y); [|lia].
  intros E. apply N1. rewrite E. apply in_map, Hy.
Qed.

(** ** The table *)
Definition is_pre (t : Z) : bool := is_preplaced t.
Record table (l : list Z) (n : Z) : Prop := {
  tb_range : forall t, In t l -> tagrange t;
  tb_sort : StronglySorted klt l;
  tb_npre : n = zlen (filter is_preplaced l)
}.

(** the preplaced tokens come first *)
Lemma table_split l n : table l n ->
  exists p q, l = p ++ q /\ zlen p = n /\ (forall t, In t p -> is_preplaced t = true) /\
              (forall t, In t q -> is_preplaced t = false).
Proof.
  intros [R S N]. subst n. induction l as [|x r IH].
  - exists [], []. cbn. repeat split; tauto.
  - inversion S as [|? ? S' F]; subst.
    destruct IH as (p & q & E & L & P & Q); [intros t Ht; apply R; right; exact Ht|exact S'|].
    destruct (is_preplaced x) eqn:Ex.
    + exists (x :: p), q. subst r. cbn. rewrite Ex. repeat split.
      * unfold zlen in *. cbn. lia.
      * intros t [<-|Ht]; [exact Ex|apply P, Ht].
      * exact Q.
    + exists [], (x :: r). cbn. rewrite Ex. repeat split.
      * assert (filter is_preplaced r = []) as ->; [|reflexivity].
        rewrite Forall_forall in F. clear E P Q L S S'.
        induction r as [|y r IH]; [reflexivity|]. cbn.
        assert (is_preplaced y = false) as ->.
        { specialize (F y (or_introl eq_refl)). unfold klt in F.
          pose proof (key_bounds x (R x (or_introl eq_refl))) as B1. rewrite Ex in B1.
          pose proof (key_bounds y (R y (or_intror (or_introl eq_refl)))) as B2.
          destruct (is_preplaced y); [lia|reflexivity]. }
        apply IH.
        -- intros t [<-|Ht]; apply R; [left; reflexivity|right; right; exact Ht].
        -- intros z Hz. apply F. right; exact Hz.
      * intros t [].
      * intros t [<-|Ht]; [exact Ex|].
        rewrite Forall_forall in F. specialize (F t Ht). unfold klt in F.
        pose proof (key_bounds x (R x (or_introl eq_refl))) as B1. rewrite Ex in B1.
        pose proof (key_bounds t (R t (or_intror Ht))) as B2.
        destruct (is_preplaced t); [lia|reflexivity].
Qed.

Lemma sorted_nth l i j : StronglySorted klt l -> 0 <= i < j -> j < zlen l -> klt (tok l i) (tok l j).
Proof.
  unfold tok, zlen. revert i j. induction l as [|x r IH]; intros i j SS Hi Hj; [cbn in Hj; lia|].
  inversion SS as [|? ? S' F]; subst. cbn [length] in Hj.
  destruct (Z.eq_dec i 0) as [->|N].
  - cbn [Z.to_nat nth]. rewrite Forall_forall in F. apply F.
    replace (Z.to_nat j) with (S (Z.to_nat (j - 1))) by lia. cbn [nth]. apply nth_In. lia.
  - replace (Z.to_nat i) with (S (Z.to_nat (i - 1))) by lia.
    replace (Z.to_nat j) with (S (Z.to_nat (j - 1))) by lia. cbn [nth].
    apply IH; [exact S'|lia|lia].
Qed.

(** ** The halving search finds the border of a monotone test *)
Section Lower.
  Variables (less : Z -> bool) (l : list Z) (a b : Z).
  Hypothesis mono : forall i j, a <= i < j -> j < b -> less (tok l j) = true -> less (tok l i) = true.

  Definition border (k lo hi : Z) : Prop :=
    lo <= k <= hi /\ (forall i, a <= i < k -> less (tok l i) = true) /\
    (forall i, k <= i < b -> less (tok l i) = false).

  Lemma halve_ok fuel iter span i n :
    a <= iter -> iter + span <= b -> 0 <= span <= Z.of_nat fuel + 3 ->
    (forall i, a <= i < iter -> less (tok l i) = true) ->
    (forall i, iter + span <= i < b -> less (tok l i) = false) ->
    halve fuel less l iter span = (i, n) ->
    a <= i /\ i + n <= b /\ 0 <= n <= 3 /\
    (forall k, a <= k < i -> less (tok l k) = true) /\
    (forall k, i + n <= k < b -> less (tok l k) = false).
  Proof.
    revert iter span. induction fuel as [|f IH]; intros iter span H1 H2 H3 H4 H5 H; cbn [halve] in H; cbv zeta in H.
    - injection H as <- <-. repeat split; try assumption; lia.
    - destruct (span >? 3) eqn:E.
      + rewrite Z.shiftr_div_pow2 in H by lia. change (2 ^ 1) with 2 in H.
        destruct (less (tok l (iter + span / 2))) eqn:Em.
        * apply IH in H; [exact H|lia|lia|lia| |].
          -- intros k Hk. destruct (Z.eq_dec k (iter + span / 2)) as [->|N]; [exact Em|].
             apply (mono k (iter + span / 2)); [lia|lia|exact Em].
          -- intros k Hk. apply H5. lia.
        * apply IH in H; [exact H|lia|lia|lia|exact H4|].
          intros k Hk. destruct (less (tok l k)) eqn:Ek; [|reflexivity].
          destruct (Z.eq_dec k (iter + span / 2)) as [->|N]; [congruence|].
          rewrite <- Em. symmetry. apply (mono (iter + span / 2) k); [lia|lia|exact Ek].
      + injection H as <- <-. repeat split; try assumption; lia.
  Qed.

  Lemma stop_here i n :
    a <= i < b -> less (tok l i) = false -> (forall k, a <= k < i -> less (tok l k) = true) ->
    0 <= n -> border i a (i + n).
  Proof.
    intros H1 H2 H3 H4. split; [lia|]. split; [exact H3|].
    intros k Hk. destruct (Z.eq_dec k i) as [->|N]; [exact H2|].
    destruct (less (tok l k)) eqn:E; [|reflexivity].
    rewrite <- H2. symmetry. apply (mono i k); [lia|lia|exact E].
  Qed.

  Lemma grow i : (forall k, a <= k < i -> less (tok l k) = true) -> less (tok l i) = true ->
    forall k, a <= k < i + 1 -> less (tok l k) = true.
  Proof. intros H E k Hk. destruct (Z.eq_dec k i) as [->|N]; [exact E|]. apply H. lia. Qed.

  Lemma rest_ok i n :
    a <= i -> i + n <= b -> 0 <= n <= 3 ->
    (forall k, a <= k < i -> less (tok l k) = true) ->
    (forall k, i + n <= k < b -> less (tok l k) = false) ->
    border (rest less l i n) i (i + n).
  Proof.
    intros H1 H2 H3 H4 H5. unfold rest.
    assert (L : forall k j, border k a (i + n) -> j <= k -> border k j (i + n)).
    { intros k j (A & B & C) J. split; [lia|]. split; assumption. }
    destruct (n =? 3) eqn:E3; [|destruct (n =? 2) eqn:E2; [|destruct (n =? 1) eqn:E1]].
    - assert (n = 3) by lia. subst n. unfold rest3, rest2, rest1.
      destruct (less (tok l i)) eqn:A; cbn [negb].
      2:{ apply L; [|lia]. apply stop_here; [lia|exact A|exact H4|lia]. }
      destruct (less (tok l (i + 1))) eqn:B; cbn [negb].
      2:{ apply L; [|lia]. replace (i + 3) with (i + 1 + 2) by lia.
          apply stop_here; [lia|exact B|apply grow; assumption|lia]. }
      destruct (less (tok l (i + 1 + 1))) eqn:C; cbn [negb].
      2:{ apply L; [|lia]. replace (i + 3) with (i + 1 + 1 + 1) by lia.
          apply stop_here; [lia|exact C|apply grow; [apply grow; assumption|assumption]|lia]. }
      split; [lia|]. split.
      + apply grow; [apply grow; [apply grow|]|]; assumption.
      + intros k Hk. apply H5. lia.
    - assert (n = 2) by lia. subst n. unfold rest2, rest1.
      destruct (less (tok l i)) eqn:B; cbn [negb].
      2:{ apply L; [|lia]. apply stop_here; [lia|exact B|exact H4|lia]. }
      destruct (less (tok l (i + 1))) eqn:C; cbn [negb].
      2:{ apply L; [|lia]. replace (i + 2) with (i + 1 + 1) by lia.
          apply stop_here; [lia|exact C|apply grow; assumption|lia]. }
      split; [lia|]. split.
      + apply grow; [apply grow|]; assumption.
      + intros k Hk. apply H5. lia.
    - assert (n = 1) by lia. subst n. unfold rest1.
      destruct (less (tok l i)) eqn:C; cbn [negb].
      2:{ apply L; [|lia]. apply stop_here; [lia|exact C|exact H4|lia]. }
      split; [lia|]. split; [apply grow; assumption|]. intros k Hk. apply H5. lia.
    - assert (n = 0) by lia. subst n. split; [lia|]. split; [exact H4|]. intros k Hk. apply H5. lia.
  Qed.

  Lemma lower_ok : 0 <= a <= b -> b <= zlen l -> border (lower less l a (b - a)) a b.
  Proof.
    intros H1 H2. unfold lower. destruct (halve (length l) less l a (b - a)) as [i n] eqn:E.
    apply halve_ok in E; [|lia|lia|unfold zlen in H2; lia|intros; lia|intros; lia].
    destruct E as (A & B & C & D & F).
    pose proof (rest_ok i n A B C D F) as (G & I & J). split; [lia|]. split; assumption.
  Qed.
End Lower.

(** ** Linear search *)
Lemma find_border (f : Z -> bool) l k :
  0 <= k < zlen l -> (forall i, 0 <= i < k -> f (tok l i) = false) -> f (tok l k) = true ->
  find f l = Some (tok l k).
Proof.
  unfold tok, zlen. revert k. induction l as [|x r IH]; intros k Hk H1 H2; [cbn in Hk; lia|].
  cbn [find]. destruct (Z.eq_dec k 0) as [->|N].
  - cbn in H2. cbn. rewrite H2. reflexivity.
  - pose proof (H1 0 ltac:(lia)) as F0. cbn in F0. rewrite F0.
    cbn [length] in Hk.
    replace (Z.to_nat k) with (S (Z.to_nat (k - 1))) in * by lia. cbn [nth] in *.
    apply IH; [lia| |exact H2].
    intros i Hi. specialize (H1 (i + 1) ltac:(lia)).
    replace (Z.to_nat (i + 1)) with (S (Z.to_nat i)) in H1 by lia. exact H1.
Qed.
Lemma find_nothing (f : Z -> bool) l :
  (forall i, 0 <= i < zlen l -> f (tok l i) = false) -> find f l = None.
Proof.
  unfold tok, zlen. induction l as [|x r IH]; intros H; [reflexivity|].
  cbn [find]. pose proof (H 0 ltac:(cbn [length]; lia)) as F0. cbn in F0. rewrite F0.
  apply IH. intros i Hi. specialize (H (i + 1) ltac:(cbn [length]; lia)).
  replace (Z.to_nat (i + 1)) with (S (Z.to_nat i)) in H by lia. exact H.
Qed.
Lemma tok_in l i : 0 <= i < zlen l -> In (tok l i) l.
Proof. unfold tok, zlen. intros H. apply nth_In. lia. Qed.
Lemma in_tok l t : In t l -> exists i, 0 <= i < zlen l /\ tok l i = t.
Proof.
  intros H. apply (In_nth _ _ 0) in H as (n & L & E). exists (Z.of_nat n).
  unfold tok, zlen. rewrite Nat2Z.id. split; [lia|exact E].
Qed.

Definition orz (o : option Z) : Z := match o with Some t => t | None => 0 end.

Section Table.
  Variables (s : schema).
  Hypothesis T : table (toks s) (npre s).

  Lemma npre_range : 0 <= npre s <= zlen (toks s).
  Proof.
    rewrite (tb_npre _ _ T). unfold zlen. clear T.
    induction (toks s) as [|x r IH]; cbn [filter length]; [lia|].
    destruct (is_preplaced x); cbn [length]; lia.
  Qed.
  Lemma tok_pre i : 0 <= i < npre s -> is_preplaced (tok (toks s) i) = true.
  Proof.
    intros H. destruct (table_split _ _ T) as (p & q & E & L & P & Q).
    rewrite E. unfold tok, zlen in *. rewrite app_nth1 by lia. apply P, nth_In. lia.
  Qed.
  Lemma tok_loose i : npre s <= i < zlen (toks s) -> is_preplaced (tok (toks s) i) = false.
  Proof.
    intros H. destruct (table_split _ _ T) as (p & q & E & L & P & Q).
    rewrite E in *. unfold tok, zlen in *. rewrite app_length in H.
    rewrite app_nth2 by lia. apply Q, nth_In. lia.
  Qed.
  Lemma tok_range i : 0 <= i < zlen (toks s) -> tagrange (tok (toks s) i).
  Proof. intros H. apply (tb_range _ _ T), tok_in, H. Qed.
  Lemma offsets_rise i j : 0 <= i < j -> j < npre s ->
    tag2offset (tok (toks s) i) <= tag2offset (tok (toks s) j).
  Proof.
    intros H1 H2. pose proof npre_range as N.
    pose proof (sorted_nth _ i j (tb_sort _ _ T) H1 ltac:(lia)) as K. unfold klt in K.
    rewrite !key_split in K by (apply tok_range; lia).
    rewrite !tok_pre in K by lia.
    pose proof (tag_parts _ (tok_range i ltac:(lia))). pose proof (tag_parts _ (tok_range j ltac:(lia))). lia.
  Qed.

  (** the key of the search for an offset *)
  Lemma offset_test t off : tagrange t -> 0 <= off <= 16383 ->
    (t <? u32 (Z.shiftl off offset_shift)) = (tag2offset t <? off).
  Proof.
    intros R H. unfold tagrange in R. rewrite tag2offset_arith. unfold u32, offset_shift.
    rewrite Z.shiftl_mul_pow2 by lia. lia.
  Qed.

  Lemma search_border off : 0 <= off <= 16383 ->
    let k := search_preplaced s off in
    0 <= k <= npre s /\
    (forall i, 0 <= i < k -> tag2offset (tok (toks s) i) < off) /\
    (forall i, k <= i < npre s -> off <= tag2offset (tok (toks s) i)).
  Proof.
    intros H. pose proof npre_range as N. cbv zeta. unfold search_preplaced.
    set (less := fun t : Z => t <? u32 (Z.shiftl off offset_shift)).
    assert (LT : forall i, 0 <= i < npre s -> less (tok (toks s) i) = (tag2offset (tok (toks s) i) <? off)).
    { intros i Hi. unfold less. apply offset_test; [apply tok_range; lia|exact H]. }
    pose proof (lower_ok less (toks s) 0 (npre s)) as LO.
    rewrite Z.sub_0_r in LO. destruct LO as (A & B & C); [|lia|lia|].
    - intros i j H1 H2. rewrite !LT by lia. pose proof (offsets_rise i j H1 H2). lia.
    - split; [lia|]. split.
      + intros i Hi. specialize (B i Hi). rewrite LT in B by lia. lia.
      + intros i Hi. specialize (C i Hi). rewrite LT in C by lia. lia.
  Qed.

  Lemma not_pre i off : npre s <= i < zlen (toks s) ->
    is_preplaced (tok (toks s) i) && (tag2offset (tok (toks s) i) =? off) = false.
  Proof. intros H. rewrite tok_loose by exact H. reflexivity. Qed.

  Lemma by_offset_find off :
    0 <= off < bytes_of s ->
    by_offset s off = orz (find (fun t => is_preplaced t && (tag2offset t =? off)) (toks s)).
  Proof.
    intros H. pose proof npre_range as N. unfold by_offset.
    replace ((off >=? 0) && (off <? bytes_of s)) with true by lia. cbv zeta.
    destruct (Z_le_gt_dec off 16383) as [Hl|Hg].
    - destruct (search_border off ltac:(lia)) as (A & B & C). cbv zeta in *.
      set (k := search_preplaced s off) in *.
      destruct (k <? npre s) eqn:E1; cbn [andb].
      + destruct (off =? tag2offset (tok (toks s) k)) eqn:E2.
        * rewrite (find_border _ _ k); [reflexivity|lia| |].
          -- intros i Hi. specialize (B i Hi). lia.
          -- rewrite tok_pre by lia. lia.
        * rewrite find_nothing; [reflexivity|]. intros i Hi.
          destruct (Z_lt_ge_dec i (npre s)) as [L|G]; [|apply not_pre; lia].
          rewrite tok_pre by lia. cbn [andb].
          destruct (Z_lt_ge_dec i k) as [L'|G']; [specialize (B i ltac:(lia)); lia|].
          pose proof (C i ltac:(lia)) as Ci. destruct (Z.eq_dec i k) as [->|Nk]; [lia|].
          pose proof (offsets_rise k i ltac:(lia) ltac:(lia)). pose proof (C k ltac:(lia)). lia.
      + rewrite find_nothing; [reflexivity|]. intros i Hi.
        destruct (Z_lt_ge_dec i (npre s)) as [L|G]; [|apply not_pre; lia].
        rewrite tok_pre by lia. cbn [andb]. specialize (B i ltac:(lia)). lia.
    - assert (FN : find (fun t => is_preplaced t && (tag2offset t =? off)) (toks s) = None).
      { apply find_nothing. intros i Hi. pose proof (tag_parts _ (tok_range i Hi)). lia. }
      rewrite FN. cbn [orz].
      destruct ((search_preplaced s off <? npre s) &&
                (off =? tag2offset (tok (toks s) (search_preplaced s off)))) eqn:E; [|reflexivity].
      exfalso. assert (K : forall i, tag2offset (tok (toks s) i) <= 16383).
      { intros i. unfold tok. destruct (nth_in_or_default (Z.to_nat i) (toks s) 0) as [I|D].
        - pose proof (tag_parts _ (tb_range _ _ T _ I)). lia.
        - rewrite D. vm_compute. discriminate. }
      specialize (K (search_preplaced s off)). lia.
  Qed.

  Lemma offset_gap off : bytes_of s <= off ->
    (forall t, In t (toks s) -> is_preplaced t = true -> tag2offset t < bytes_of s) ->
    find (fun t => is_preplaced t && (tag2offset t =? off)) (toks s) = None.
  Proof.
    intros H1 H2. apply find_nothing. intros i Hi.
    pose proof (H2 _ (tok_in _ _ Hi)) as H3.
    destruct (is_preplaced (tok (toks s) i)); [|reflexivity]. specialize (H3 eq_refl). lia.
  Qed.

  (** the first token at a greater offset, when no two preplaced tokens share an offset *)
  Definition distinct_offsets : Prop := forall t1 t2, In t1 (toks s) -> In t2 (toks s) ->
    is_preplaced t1 = true -> is_preplaced t2 = true -> tag2offset t1 = tag2offset t2 -> t1 = t2.

  Lemma next_find off : distinct_offsets -> 0 <= off < bytes_of s -> off <= 16383 ->
    next_by_offset s off = orz (find (fun t => is_preplaced t && (off <? tag2offset t)) (toks s)).
  Proof.
    intros DO H Hl. pose proof npre_range as N. unfold next_by_offset.
    replace ((off >=? 0) && (off <? bytes_of s)) with true by lia. cbv zeta.
    destruct (search_border off ltac:(lia)) as (A & B & C). cbv zeta in *.
    set (k := search_preplaced s off) in *.
    assert (NP : forall i, npre s <= i < zlen (toks s) ->
              is_preplaced (tok (toks s) i) && (off <? tag2offset (tok (toks s) i)) = false).
    { intros i Hi. rewrite tok_loose by exact Hi. reflexivity. }
    destruct (k <? npre s) eqn:E1.
    - set (j := k + Z.b2z (tag2offset (tok (toks s) k) =? off)).
      assert (J : forall i, 0 <= i < j -> is_preplaced (tok (toks s) i) && (off <? tag2offset (tok (toks s) i)) = false).
      { intros i Hi. destruct (Z_lt_ge_dec i k) as [L|G].
        - specialize (B i ltac:(lia)). lia.
        - assert (i = k /\ tag2offset (tok (toks s) k) = off) as [-> Eo] by (subst j; lia). lia. }
      destruct (j <? npre s) eqn:E2.
      + rewrite (find_border _ _ j); [reflexivity|subst j; lia|exact J|].
        rewrite tok_pre by (subst j; lia). cbn [andb].
        pose proof (C j ltac:(subst j; lia)) as Cj.
        assert (tag2offset (tok (toks s) j) <> off); [|lia]. intros Eo.
        destruct (Z.eq_dec (tag2offset (tok (toks s) k)) off) as [Ek|Nk].
        * assert (j = k + 1) by (subst j; lia).
          assert (Q : tok (toks s) k = tok (toks s) j).
          { apply DO; [apply tok_in; lia|apply tok_in; lia|apply tok_pre; lia|apply tok_pre; lia|lia]. }
          pose proof (sorted_nth _ k j (tb_sort _ _ T) ltac:(lia) ltac:(lia)) as K.
          unfold klt in K. rewrite Q in K. lia.
        * assert (j = k) by (subst j; lia). congruence.
      + rewrite find_nothing; [reflexivity|]. intros i Hi.
        destruct (Z_lt_ge_dec i (npre s)) as [L|G]; [|apply NP; lia]. apply J. lia.
    - rewrite find_nothing; [reflexivity|]. intros i Hi.
      destruct (Z_lt_ge_dec i (npre s)) as [L|G]; [|apply NP; lia].
      specialize (B i ltac:(lia)). lia.
  Qed.

  (** the last token at a smaller offset *)
  Lemma prev_find off : 0 < off <= bytes_of s -> off <= 16383 ->
    match find (fun t => is_preplaced t && (tag2offset t <? off)) (rev (toks s)) with
    | Some t => prev_by_offset s off = Some t
    | None => prev_by_offset s off = None
    end.
  Proof.
    intros H Hl. pose proof npre_range as N. unfold prev_by_offset.
    replace ((off >? 0) && (off <=? bytes_of s)) with true by lia. cbv zeta.
    destruct (search_border off ltac:(lia)) as (A & B & C). cbv zeta in *.
    set (k := search_preplaced s off) in *.
    assert (RV : forall i, 0 <= i < zlen (toks s) -> tok (rev (toks s)) i = tok (toks s) (zlen (toks s) - 1 - i)).
    { intros i Hi. unfold tok, zlen in *. rewrite rev_nth by lia. f_equal. lia. }
    assert (LR : zlen (rev (toks s)) = zlen (toks s)) by (unfold zlen; rewrite rev_length; reflexivity).
    assert (F : forall i, k <= i < zlen (toks s) ->
              is_preplaced (tok (toks s) i) && (tag2offset (tok (toks s) i) <? off) = false).
    { intros i Hi. destruct (Z_lt_ge_dec i (npre s)) as [L|G].
      - specialize (C i ltac:(lia)). lia.
      - rewrite tok_loose by lia. reflexivity. }
    destruct (k - 1 >=? 0) eqn:E.
    - rewrite (find_border _ _ (zlen (toks s) - k)).
      + rewrite RV by lia. do 2 f_equal. lia.
      + rewrite LR. lia.
      + intros i Hi. rewrite RV by lia. apply F. lia.
      + rewrite RV by lia. replace (zlen (toks s) - 1 - (zlen (toks s) - k)) with (k - 1) by lia.
        rewrite tok_pre by lia. specialize (B (k - 1) ltac:(lia)). lia.
    - rewrite find_nothing; [reflexivity|]. rewrite LR. intros i Hi. rewrite RV by lia. apply F. lia.
  Qed.

  Lemma by_loose_find desc : 0 <= desc < 2 ^ 16 ->
    by_loose s desc = orz (find (fun t => is_loose t && (tag2genus_and_id t =? desc)) (toks s)).
  Proof.
    intros H. pose proof npre_range as N. unfold by_loose. cbv zeta.
    assert (IL : forall t, is_loose t = negb (is_preplaced t)) by (intros t; unfold is_loose, is_preplaced; lia).
    assert (Key : normalize_tag (make_tag_desc desc false false false) = 0xFFFF0000 + desc).
    { unfold make_tag_desc, u32. cbn [flag]. rewrite loose_threshold_val.
      rewrite normalize_loose; [|rewrite loose_threshold_val]; lia. }
    rewrite Key.
    assert (G : forall i, npre s <= i < zlen (toks s) ->
               normalize_tag (tok (toks s) i) = 0xFFFF0000 + tag2genus_and_id (tok (toks s) i)).
    { intros i Hi. pose proof (tok_range i ltac:(lia)) as R. unfold tagrange in R.
      pose proof (tok_loose i Hi) as L. unfold is_preplaced in L.
      rewrite normalize_loose by lia. reflexivity. }
    assert (P : forall i, 0 <= i < npre s ->
              is_loose (tok (toks s) i) && (tag2genus_and_id (tok (toks s) i) =? desc) = false).
    { intros i Hi. rewrite IL, tok_pre by lia. reflexivity. }
    destruct (zlen (toks s) - npre s =? 0) eqn:E0.
    { rewrite find_nothing; [reflexivity|]. intros i Hi. apply P. lia. }
    set (less := fun t : Z => normalize_tag t <? 0xFFFF0000 + desc).
    destruct (lower_ok less (toks s) (npre s) (zlen (toks s))) as (A & B & C); [|lia|lia|].
    { intros i j H1 H2 Hj. unfold less in *.
      pose proof (sorted_nth _ i j (tb_sort _ _ T) ltac:(lia) H2) as K. unfold klt in K. lia. }
    set (k := lower less (toks s) (npre s) (zlen (toks s) - npre s)) in *.
    destruct (k <? zlen (toks s)) eqn:E1; cbn [andb].
    - destruct (tag2genus_and_id (tok (toks s) k) =? desc) eqn:E2.
      + rewrite (find_border _ _ k); [reflexivity|lia| |].
        * intros i Hi. destruct (Z_lt_ge_dec i (npre s)) as [L|Gi]; [apply P; lia|].
          specialize (B i ltac:(lia)). unfold less in B. rewrite G in B by lia. lia.
        * rewrite IL, tok_loose by lia. cbn [negb andb]. exact E2.
      + rewrite find_nothing; [reflexivity|]. intros i Hi.
        destruct (Z_lt_ge_dec i (npre s)) as [L|Gi]; [apply P; lia|].
        destruct (Z_lt_ge_dec i k) as [Lk|Gk].
        * specialize (B i ltac:(lia)). unfold less in B. rewrite G in B by lia. lia.
        * pose proof (C k ltac:(lia)) as Ck. unfold less in Ck. rewrite G in Ck by lia.
          destruct (Z.eq_dec i k) as [->|Nk]; [lia|].
          pose proof (sorted_nth _ k i (tb_sort _ _ T) ltac:(lia) ltac:(lia)) as K. unfold klt in K.
          rewrite !G in K by lia. lia.
    - rewrite find_nothing; [reflexivity|]. intros i Hi.
      destruct (Z_lt_ge_dec i (npre s)) as [L|Gi]; [apply P; lia|].
      specialize (B i ltac:(lia)). unfold less in B. rewrite G in B by lia. lia.
  Qed.
End Table.

(** ** What a successful definition did *)
Definition room (s : schema) (ident : Z) (init : option (list Z)) (im : list Z) : Prop :=
  if is_preplaced ident then
    no_collision ident (toks s) = true /\ reserve_ok (image s) ident = true /\
    new_image (image s) ident init = Some im
  else im = image s.

Lemma existsb_false {A} (f : A -> bool) l : existsb f l = false <-> (forall x, In x l -> f x = false).
Proof.
  induction l as [|x r IH]; cbn; [split; [intros _ x []|reflexivity]|].
  rewrite orb_false_iff, IH. split.
  - intros [A1 B] y [<-|H]; [exact A1|apply B, H].
  - intros H. split; [apply H; left; reflexivity|intros y Hy; apply H; right; exact Hy].
Qed.

Lemma add_defined s n ident init t s' :
  add_definition s n ident init = Defined t s' ->
  t = ident /\ zlen n <= 42 /\
  (forall p, In p (n2t s) -> fst p <> n) /\
  (forall p, In p (t2n s) -> normalize_tag (fst p) <> normalize_tag ident) /\
  exists im, room s ident init im /\
    s' = mkSch ((n, ident) :: n2t s) ((ident, n) :: t2n s) (sort_tokens (toks s ++ [ident])) im
           (npre s + Z.b2z (is_preplaced ident))
           (nstr s + Z.b2z (is_preplaced ident && negb (is_fixed_size ident))).
Proof.
  unfold add_definition. intros H.
  destruct (zlen n >? 42) eqn:E1; [discriminate|].
  destruct (existsb (fun p => name_eqb (fst p) n) (n2t s)) eqn:E2; [discriminate|].
  destruct (existsb (fun p => tag_same (fst p) ident) (t2n s)) eqn:E3; [discriminate|].
  pose proof (proj1 (existsb_false _ _) E2) as F2. pose proof (proj1 (existsb_false _ _) E3) as F3.
  assert (A2 : forall p, In p (n2t s) -> fst p <> n).
  { intros p Hp Q. specialize (F2 p Hp). apply name_eqb_eq in Q. cbv beta in F2. congruence. }
  assert (A3 : forall p, In p (t2n s) -> normalize_tag (fst p) <> normalize_tag ident).
  { intros p Hp Q. specialize (F3 p Hp). cbv beta in F3. unfold tag_same in F3. lia. }
  unfold room. destruct (is_preplaced ident) eqn:EP.
  - destruct (no_collision ident (toks s)) eqn:E4; [|discriminate].
    destruct (reserve_ok (image s) ident) eqn:E5; [|discriminate]. cbn [negb] in H.
    destruct (new_image (image s) ident init) as [im|] eqn:E6; [|discriminate].
    injection H as <- <-. repeat (split; [first [reflexivity|lia|assumption]|]).
    exists im. split; [auto|]. reflexivity.
  - injection H as <- <-. repeat (split; [first [reflexivity|lia|assumption]|]).
    exists (image s). split; [reflexivity|]. cbn [Z.b2z andb]. rewrite !Z.add_0_r. reflexivity.
Qed.

(** parameters as the types of C++ allow them *)
Definition wf_def (d : def) : Prop :=
  match d with
  | DPreplaced _ type _ _ _ => 0 <= type <= 31
  | DOpacity _ size align _ => 0 <= size < 2 ^ 63 /\ 0 <= align < 2 ^ 63
  | DLoose _ type _ _ _ => 0 <= type <= 31
  | DImport _ ident _ _ => tagrange ident
  end.

Lemma aligned_ge u a : 0 <= a -> u <= aligned u a.
Proof.
  intros H. unfold aligned.
  assert (0 <= Z.land (u64 (a - u)) (a - 1)); [|lia].
  apply Z.land_nonneg. left. unfold u64. lia.
Qed.
Lemma aligned4 u : 0 <= u -> aligned u 4 mod 4 = 0 /\ aligned u 4 <= u + 3.
Proof.
  intros H. unfold aligned. change (4 - 1) with (2 ^ 2 - 1). rewrite land_mask by lia.
  unfold u64. split; lia.
Qed.
Lemma aligned2 u : 0 <= u -> aligned u 2 mod 2 = 0 /\ aligned u 2 <= u + 1.
Proof.
  intros H. unfold aligned. change (2 - 1) with (2 ^ 1 - 1). rewrite land_mask by lia.
  unfold u64. split; lia.
Qed.
Lemma aligned1 u : aligned u 1 = u.
Proof. unfold aligned. change (1 - 1) with 0. rewrite Z.land_0_r. lia. Qed.

Lemma zlen_nonneg {A} (l : list A) : 0 <= zlen l.
Proof. unfold zlen. lia. Qed.

(** the token of [define_preplaced] *)
Definition width_align (g : Z) : Z := if preplaced_bytes g >? 4 then 4 else preplaced_bytes g.
Lemma define_preplaced_inv s n type disc sat init t s' :
  0 <= type <= 31 -> define_preplaced s n type disc sat init = Defined t s' ->
  add_definition s n t init = Defined t s' /\ type < 31 /\
  token_preplaced (aligned (bytes_of s) (width_align type)) type disc sat = Some t /\
  0 <= aligned (bytes_of s) (width_align type) <= 16381 /\ tagrange t.
Proof.
  intros Ht H. unfold define_preplaced in H.
  destruct (type >=? g_hole) eqn:E1; [discriminate|]. change g_hole with 31 in E1.
  cbv zeta in H. fold (width_align type) in H.
  destruct (aligned (bytes_of s) (width_align type) >? max_preplaced_offset) eqn:E2; [discriminate|].
  change max_preplaced_offset with 16381 in E2.
  destruct (token_preplaced (aligned (bytes_of s) (width_align type)) type disc sat) as [ident|] eqn:E3; [|discriminate].
  pose proof (add_defined _ _ _ _ _ _ H) as (-> & _).
  assert (0 <= width_align type) by (unfold width_align; pose proof (preplaced_bytes_bound type); destruct (_ >? 4); lia).
  pose proof (aligned_ge (bytes_of s) (width_align type) ltac:(lia)) as G.
  pose proof (zlen_nonneg (image s)). unfold bytes_of in *.
  split; [exact H|]. split; [lia|]. split; [reflexivity|]. split; [lia|].
  apply token_preplaced_val in E3 as (A & B & V); [|lia|lia].
  pose proof (preplaced_bytes_bound type). unfold tagrange. rewrite V. destruct disc, sat; lia.
Qed.

Lemma define_loose_inv s n type c d sat t s' :
  0 <= type <= 31 -> (forall e, In e (toks s) -> tagrange e) ->
  define_loose s n type c d sat = Defined t s' ->
  add_definition s n t None = Defined t s' /\ tagrange t /\ is_preplaced t = false.
Proof.
  intros Ht R H. unfold define_loose in H.
  destruct (type >=? g_hole) eqn:E1; [discriminate|]. change g_hole with 31 in E1. cbv zeta in H.
  destruct (get_next_loose_id s type >=? loose_end) eqn:E2; [discriminate|].
  destruct (token_loose type (get_next_loose_id s type) c d sat) as [ident|] eqn:E3; [|discriminate].
  pose proof (add_defined _ _ _ _ _ _ H) as (-> & _).
  assert (N : 0 <= get_next_loose_id s type).
  { unfold get_next_loose_id. cbv zeta.
    destruct (rev (take_while _ (toks s))) as [|e r] eqn:Er; [lia|].
    destruct (negb (is_preplaced e) && (tag2genus e =? type)); [|lia].
    rewrite tag2id_arith. lia. }
  pose proof (token_loose_fields _ _ _ _ _ _ E3 ltac:(lia) N) as (_ & P & _).
  apply token_loose_val in E3 as (A & B & V); [|lia|lia].
  split; [exact H|]. split; [|exact P]. unfold tagrange. rewrite V. destruct c, d, sat; lia.
Qed.

Lemma define_opacity_inv s n size align init t s' :
  0 <= size < 2 ^ 63 -> 0 <= align < 2 ^ 63 -> define_opacity s n size align init = Defined t s' ->
  add_definition s n t init = Defined t s' /\ tagrange t /\ is_preplaced t = true /\
  tag2genus t = g_hole /\ tag2indysize t = 0 /\ bytes_of s <= tag2offset t.
Proof.
  intros Hs Ha H. unfold define_opacity in H.
  destruct (size >=? 2047); [discriminate|]. destruct (size <? 1); [discriminate|].
  destruct (align >=? 16) eqn:E1; [discriminate|]. cbv zeta in H.
  set (al := if align =? 0 then if size >? 4 then 4 else size else align) in *.
  assert (0 <= al) by (subst al; destruct (align =? 0), (size >? 4); lia). clearbody al.
  destruct (negb (align =? 0) && negb (Z.land align (align - 1) =? 0)); [discriminate|].
  destruct (aligned (bytes_of s) al >? max_preplaced_offset) eqn:E2; [discriminate|].
  change max_preplaced_offset with 16381 in E2.
  destruct (token_preplaced (aligned (bytes_of s) al) g_hole false false) as [ident|] eqn:E3; [|discriminate].
  pose proof (add_defined _ _ _ _ _ _ H) as (-> & _).
  pose proof (aligned_ge (bytes_of s) al ltac:(lia)) as G.
  pose proof (zlen_nonneg (image s)). unfold bytes_of in *. change g_hole with 31 in *.
  pose proof (token_preplaced_fields _ _ _ _ _ E3 ltac:(lia) ltac:(lia)) as (P & _ & _ & Gn & O & I & _).
  split; [exact H|]. apply token_preplaced_val in E3 as (A & B & V); [|lia|lia].
  split; [unfold tagrange; clear - V A; change (preplaced_bytes 31) with 0 in V; lia|].
  split; [exact P|]. split; [exact Gn|]. split; [rewrite I; reflexivity|]. lia.
Qed.

(** ** The invariant *)
Definition ending (t : Z) : Z := tag2offset t + tag2indysize t.
Definition crosses (a b : Z) : Prop :=   (* partial overlap *)
  (tag2offset a < tag2offset b < ending a /\ ending a < ending b) \/
  (tag2offset b < tag2offset a < ending b /\ ending b < ending a).
Definition shares (a b : Z) : Prop :=
  exists x, tag2offset a <= x < ending a /\ tag2offset b <= x < ending b.

Record SInv (s : schema) (log : list (name * Z)) : Prop := {
  si_n2t : n2t s = rev log;
  si_t2n : t2n s = rev (map (fun p => (snd p, fst p)) log);
  si_perm : Permutation (toks s) (map snd log);
  si_names : NoDup (map fst log);
  si_keys : NoDup (map (fun p => normalize_tag (snd p)) log);
  si_long : forall p, In p log -> zlen (fst p) <= 42;
  si_table : table (toks s) (npre s);
  si_image : forall t, In t (toks s) -> is_preplaced t = true -> ending t <= bytes_of s;
  si_cross : forall t1 t2, In t1 (toks s) -> In t2 (toks s) ->
    is_preplaced t1 = true -> is_preplaced t2 = true -> ~ crosses t1 t2;
  si_share : forall t1 t2, In t1 (toks s) -> In t2 (toks s) -> t1 <> t2 ->
    is_preplaced t1 = true -> is_preplaced t2 = true ->
    tag2genus t1 <> g_hole -> tag2genus t2 <> g_hole -> ~ shares t1 t2
}.

Lemma inv_empty : SInv empty_schema [].
Proof.
  constructor; cbn; try (intros; contradiction); try constructor.
  - cbn. intros ? [].
  - constructor.
  - reflexivity.
Qed.

Lemma no_collision_all ident l n : table l n -> no_collision ident l = true ->
  forall t, In t l -> is_preplaced t = true ->
    is_crossing ident t = false /\
    (tag2genus ident <> g_hole -> tag2genus t <> g_hole -> is_overlapped ident t = false).
Proof.
  intros T H t Ht Pt. destruct (table_split _ _ T) as (p & q & E & _ & P & Q). subst l.
  apply in_app_or in Ht as [Ht|Ht]; [|rewrite Q in Pt by exact Ht; discriminate].
  clear T. induction p as [|x r IH]; [contradiction|]. cbn [app no_collision] in H.
  rewrite (P x (or_introl eq_refl)) in H. cbn [negb] in H.
  destruct (is_crossing ident x) eqn:E1; [discriminate|].
  destruct (negb (tag2genus ident =? g_hole) && negb (tag2genus x =? g_hole) && is_overlapped ident x) eqn:E2;
    [discriminate|].
  destruct Ht as [<-|Ht].
  - split; [exact E1|]. intros A B. destruct (is_overlapped ident x); [|reflexivity]. lia.
  - apply IH; try assumption. intros y Hy. apply P. right. exact Hy.
Qed.

Lemma crossing_spec a b : tagrange a -> tagrange b -> is_crossing a b = false ->
  0 < tag2indysize a -> ~ crosses a b /\ ~ crosses b a.
Proof.
  intros Ra Rb H Sa. unfold is_crossing, is_inside in H. unfold crosses, ending.
  pose proof (tag_parts a Ra). pose proof (tag_parts b Rb).
  set (oa := tag2offset a) in *. set (na := tag2indysize a) in *.
  set (ob := tag2offset b) in *. set (nb := tag2indysize b) in *.
  destruct (oa >=? ob) eqn:E1, (oa <? ob + nb) eqn:E2, (oa + na - 1 >=? ob) eqn:E3,
    (oa + na - 1 <? ob + nb) eqn:E4; cbn in H; try discriminate; lia.
Qed.
Lemma crossing_empty a b : tagrange a -> tagrange b -> tag2indysize a = 0 -> is_crossing a b = false ->
  ~ crosses a b /\ ~ crosses b a.
Proof.
  intros Ra Rb Sa H. unfold is_crossing, is_inside in H. unfold crosses, ending.
  pose proof (tag_parts a Ra). pose proof (tag_parts b Rb).
  set (oa := tag2offset a) in *. set (na := tag2indysize a) in *.
  set (ob := tag2offset b) in *. set (nb := tag2indysize b) in *.
  clear H. lia.
Qed.
Lemma overlapped_spec a b : is_overlapped a b = false -> ~ shares a b /\ ~ shares b a.
Proof.
  unfold is_overlapped, shares, ending. intros H. split; intros (x & X & Y);
    destruct (tag2offset a + tag2indysize a <=? tag2offset b) eqn:E1; try lia;
    destruct (tag2offset a >=? tag2offset b + tag2indysize b) eqn:E2; lia.
Qed.

Lemma some_eq {A} (a b : A) : Some a = Some b -> a = b.
Proof. congruence. Qed.
Lemma new_image_length im ident init im' :
  tagrange ident -> new_image im ident init = Some im' ->
  zlen im' = Z.max (zlen im) (tag2offset ident) + tag2indysize ident.
Proof.
  intros R H. pose proof (tag_parts _ R) as P. unfold new_image in H. cbv zeta in H.
  destruct init as [v|].
  - apply some_eq in H. subst im'. unfold zlen, given. rewrite !app_length, repeat_length, map_length, seq_length. lia.
  - destruct (tag2genus ident =? g_hole); [discriminate|].
    destruct (_ <=? _); [|discriminate]. apply some_eq in H. subst im'.
    unfold zlen, overwrite. rewrite map_length, seq_length, !app_length, !repeat_length. lia.
Qed.

Lemma NoDup_app_one {A} (l : list A) x : NoDup l -> ~ In x l -> NoDup (l ++ [x]).
Proof.
  intros H N. apply (Permutation_NoDup (Permutation_cons_append l x)). constructor; assumption.
Qed.
Lemma filter_perm_len (f : Z -> bool) l l' : Permutation l l' -> zlen (filter f l) = zlen (filter f l').
Proof.
  unfold zlen. induction 1 as [|x l l' P IH|x y l|l l' l'' P1 IH1 P2 IH2]; cbn [filter].
  - reflexivity.
  - destruct (f x); cbn [length]; lia.
  - destruct (f x), (f y); reflexivity.
  - lia.
Qed.

Lemma inv_step s log n ident init t s' :
  SInv s log -> tagrange ident -> add_definition s n ident init = Defined t s' ->
  SInv s' (log ++ [(n, ident)]).
Proof.
  intros I R H. destruct (add_defined _ _ _ _ _ _ H) as (-> & Ln & Nn & Nk & im & Rm & ->).
  assert (PM : Permutation (toks s ++ [ident]) (sort_tokens (toks s ++ [ident]))) by apply sort_perm.
  assert (IN : forall t, In t (sort_tokens (toks s ++ [ident])) <-> In t (toks s) \/ t = ident).
  { intros t. split; intros Ht.
    - apply (Permutation_in _ (Permutation_sym PM)) in Ht. apply in_app_or in Ht as [?|[?|[]]]; auto.
    - apply (Permutation_in _ PM). apply in_or_app. destruct Ht as [?| ->]; [left; assumption|right; left; reflexivity]. }
  assert (TI : forall t, In t (toks s) -> exists m, In (m, t) log).
  { intros t Ht. apply (Permutation_in _ (si_perm _ _ I)) in Ht. apply in_map_iff in Ht as ([m u] & <- & Hp).
    exists m. exact Hp. }
  assert (NK : forall t, In t (toks s) -> normalize_tag t <> normalize_tag ident).
  { intros t Ht. destruct (TI t Ht) as (m & Hm). apply (Nk (t, m)). rewrite (si_t2n _ _ I).
    rewrite <- in_rev. apply in_map_iff. exists (m, t). split; [reflexivity|exact Hm]. }
  pose proof (tb_range _ _ (si_table _ _ I)) as TR.
  assert (KS : NoDup (map normalize_tag (sort_tokens (toks s ++ [ident])))).
  { apply (Permutation_NoDup (Permutation_map normalize_tag PM)). rewrite map_app. cbn [map].
    apply NoDup_app_one.
    - apply (Permutation_NoDup (Permutation_map normalize_tag (Permutation_sym (si_perm _ _ I)))).
      rewrite map_map. exact (si_keys _ _ I).
    - rewrite in_map_iff. intros (t & E & Ht). exact (NK t Ht E). }
  assert (IMG : bytes_of s <= zlen im /\ (is_preplaced ident = true -> ending ident <= zlen im)).
  { unfold room in Rm. destruct (is_preplaced ident).
    - destruct Rm as (_ & _ & E). apply new_image_length in E; [|exact R].
      pose proof (tag_parts _ R). unfold bytes_of, ending. lia.
    - subst im. unfold bytes_of. split; [lia|discriminate]. }
  constructor; cbn [n2t t2n toks image npre nstr].
  - rewrite (si_n2t _ _ I), rev_app_distr. reflexivity.
  - rewrite (si_t2n _ _ I), map_app, rev_app_distr. reflexivity.
  - rewrite <- PM, map_app. cbn [map snd]. apply Permutation_app_tail, (si_perm _ _ I).
  - rewrite map_app. cbn [map fst]. apply NoDup_app_one; [apply (si_names _ _ I)|].
    rewrite in_map_iff. intros ([m u] & E & Hp). cbn in E. subst m.
    apply (Nn (n, u)); [|reflexivity]. rewrite (si_n2t _ _ I), <- in_rev. exact Hp.
  - rewrite map_app. cbn [map snd]. apply NoDup_app_one; [apply (si_keys _ _ I)|].
    rewrite in_map_iff. intros ([m u] & E & Hp). cbn in E.
    apply (NK u); [|exact E]. apply (Permutation_in _ (Permutation_sym (si_perm _ _ I))).
    apply in_map_iff. exists (m, u). split; [reflexivity|exact Hp].
  - intros p Hp. apply in_app_or in Hp as [Hp|[<-|[]]]; [apply (si_long _ _ I), Hp|exact Ln].
  - constructor.
    + intros t Ht. apply IN in Ht as [Ht| ->]; [apply TR, Ht|exact R].
    + apply strict; [apply sort_sorted|exact KS].
    + rewrite <- (filter_perm_len _ _ _ PM), filter_app. unfold zlen at 1. rewrite app_length.
      rewrite (tb_npre _ _ (si_table _ _ I)). unfold zlen. cbn [filter].
      destruct (is_preplaced ident); cbn [length Z.b2z]; lia.
  - unfold bytes_of. cbn [image]. intros t Ht Pt. apply IN in Ht as [Ht| ->].
    + pose proof (si_image _ _ I t Ht Pt). unfold bytes_of in *. lia.
    + apply IMG, Pt.
  - intros t1 t2 H1 H2 P1 P2.
    assert (X : forall t, In t (toks s) -> is_preplaced t = true -> is_preplaced ident = true ->
              ~ crosses ident t /\ ~ crosses t ident).
    { intros t Ht Pt Pi. unfold room in Rm. rewrite Pi in Rm. destruct Rm as (C & _).
      destruct (no_collision_all _ _ _ (si_table _ _ I) C t Ht Pt) as (C1 & _).
      pose proof (tag_parts _ R).
      destruct (Z.eq_dec (tag2indysize ident) 0) as [Z0|NZ].
      - apply crossing_empty; auto.
      - apply crossing_spec; auto. lia. }
    apply IN in H1 as [H1| ->]; apply IN in H2 as [H2| ->].
    + apply (si_cross _ _ I); assumption.
    + apply X; assumption.
    + apply X; assumption.
    + unfold crosses. lia.
  - intros t1 t2 H1 H2 N P1 P2 G1 G2.
    assert (X : forall t, In t (toks s) -> is_preplaced t = true -> is_preplaced ident = true ->
              tag2genus ident <> g_hole -> tag2genus t <> g_hole -> ~ shares ident t /\ ~ shares t ident).
    { intros t Ht Pt Pi Gi Gt. unfold room in Rm. rewrite Pi in Rm. destruct Rm as (C & _).
      destruct (no_collision_all _ _ _ (si_table _ _ I) C t Ht Pt) as (_ & C2).
      apply overlapped_spec, C2; assumption. }
    apply IN in H1 as [H1| ->]; apply IN in H2 as [H2| ->].
    + apply (si_share _ _ I); assumption.
    + apply X; assumption.
    + apply X; assumption.
    + contradiction.
Qed.

(** every successful call goes through [add_definition] *)
Lemma define_inv s d t s' :
  wf_def d -> (forall e, In e (toks s) -> tagrange e) -> define s d = Defined t s' ->
  tagrange t /\ exists init, add_definition s (def_name d) t init = Defined t s'.
Proof.
  intros W R H. destruct d as [n g di sa init|n size al init|n g c di sa|n ident init ren]; cbn [define def_name wf_def] in *.
  - apply define_preplaced_inv in H as (A & _ & _ & _ & B); [|exact W]. split; [exact B|]. exists init. exact A.
  - apply define_opacity_inv in H as (A & B & _); [|apply W|apply W]. split; [exact B|]. exists init. exact A.
  - apply define_loose_inv in H as (A & B & _); [|exact W|exact R]. split; [exact B|]. exists None. exact A.
  - unfold import_definition in H. pose proof (tag_parts _ W) as P.
    destruct ren; cbn [negb] in H.
    + destruct (is_preplaced ident).
      * destruct (tag2genus ident =? g_hole); [discriminate|].
        apply define_preplaced_inv in H as (A & _ & _ & _ & B); [|lia]. split; [exact B|]. exists init. exact A.
      * apply define_loose_inv in H as (A & B & _); [|lia|exact R]. split; [exact B|]. exists None. exact A.
    + pose proof (add_defined _ _ _ _ _ _ H) as (-> & _). split; [exact W|]. exists init. exact H.
Qed.

Lemma definitions_inv ds s log s' log' :
  SInv s log -> Forall wf_def ds -> definitions s ds = Some (s', log') -> SInv s' (log ++ log').
Proof.
  revert s log log'. induction ds as [|d r IH]; intros s log log' I W H; cbn in H.
  - injection H as <- <-. rewrite app_nil_r. exact I.
  - inversion W as [|? ? W1 W2]; subst.
    destruct (define s d) as [t s1| |] eqn:E; [| |discriminate].
    + destruct (definitions s1 r) as [[s2 lg]|] eqn:E2; [|discriminate]. injection H as <- <-.
      apply define_inv in E as (R & init & A); [|exact W1|apply (tb_range _ _ (si_table _ _ I))].
      specialize (IH s1 (log ++ [(def_name d, t)]) lg).
      rewrite <- app_assoc in IH. apply IH; [|exact W2|exact E2].
      eapply inv_step; eassumption.
    + apply (IH s log log'); assumption.
Qed.
Lemma reached_schema ds s log : Forall wf_def ds -> definitions empty_schema ds = Some (s, log) -> SInv s log.
Proof. intros W H. apply (definitions_inv _ _ [] _ _ inv_empty W H). Qed.

(** ** Lookups *)
Lemma find_pair {A B} (f : A * B -> bool) l p :
  In p l -> f p = true -> (forall q, In q l -> f q = true -> q = p) -> find f l = Some p.
Proof.
  intros H1 H2 H3. destruct (find f l) as [q|] eqn:E.
  - apply find_some in E as [E1 E2]. f_equal. apply H3; assumption.
  - pose proof (find_none _ _ E p H1). congruence.
Qed.
Lemma nodup_fst {A B} (l : list (A * B)) a b1 b2 : NoDup (map fst l) -> In (a, b1) l -> In (a, b2) l -> b1 = b2.
Proof.
  induction l as [|[x y] r IH]; cbn; intros N H1 H2; [contradiction|].
  inversion N as [|? ? N1 N2]; subst.
  destruct H1 as [H1|H1], H2 as [H2|H2].
  - congruence.
  - exfalso. apply N1. injection H1 as -> _. apply in_map_iff. exists (a, b2). split; [reflexivity|exact H2].
  - exfalso. apply N1. injection H2 as -> _. apply in_map_iff. exists (a, b1). split; [reflexivity|exact H1].
  - apply IH; assumption.
Qed.
Lemma nodup_map {A B} (f : A -> B) l x y : NoDup (map f l) -> In x l -> In y l -> f x = f y -> x = y.
Proof.
  induction l as [|z r IH]; cbn; intros N H1 H2 E; [contradiction|].
  inversion N as [|? ? N1 N2]; subst.
  destruct H1 as [<-|H1], H2 as [<-|H2]; [reflexivity| | |apply IH; assumption].
  - exfalso. apply N1. rewrite E. apply in_map, H2.
  - exfalso. apply N1. rewrite <- E. apply in_map, H1.
Qed.

Lemma get_token_spec s log n di sa : SInv s log ->
  (forall t, In (n, t) log -> get_token s n di sa = enforce sa enforce_saturation (enforce di enforce_discernible_null t)) /\
  (~ In n (map fst log) -> get_token s n di sa = 0).
Proof.
  intros I. unfold get_token. rewrite (si_n2t _ _ I). split.
  - intros t Ht. rewrite (find_pair _ _ (n, t)); [reflexivity|rewrite <- in_rev; exact Ht|apply name_eqb_eq; reflexivity|].
    intros [m u] Hq E. apply name_eqb_eq in E. cbn in E. subst m. rewrite <- in_rev in Hq.
    f_equal. exact (nodup_fst _ _ _ _ (si_names _ _ I) Hq Ht).
  - intros N. destruct (find _ (rev log)) as [[m u]|] eqn:E; [|reflexivity].
    apply find_some in E as [E1 E2]. apply name_eqb_eq in E2. cbn in E2. subst m. exfalso. apply N.
    apply in_map_iff. exists (n, u). split; [reflexivity|]. rewrite in_rev. exact E1.
Qed.
Lemma get_name_spec s log t : SInv s log ->
  (forall n u, In (n, u) log -> normalize_tag u = normalize_tag t -> get_name s t = Some n) /\
  ((forall n u, In (n, u) log -> normalize_tag u <> normalize_tag t) -> get_name s t = None).
Proof.
  intros I. unfold get_name. rewrite (si_t2n _ _ I). split.
  - intros n u Hu E. rewrite (find_pair _ _ (u, n)); [reflexivity| | |].
    + rewrite <- in_rev. apply in_map_iff. exists (n, u). split; [reflexivity|exact Hu].
    + unfold tag_same. cbn. lia.
    + intros [v m] Hq E2. rewrite <- in_rev in Hq. apply in_map_iff in Hq as ([m' v'] & Q & Hq).
      cbn in Q. injection Q as -> ->. unfold tag_same in E2. cbn in E2.
      assert ((m, v) = (n, u)) as Q; [|congruence].
      apply (nodup_map _ _ _ _ (si_keys _ _ I) Hq Hu). cbn. lia.
  - intros N. destruct (find _ _) as [[v m]|] eqn:E; [|reflexivity].
    apply find_some in E as [E1 E2]. rewrite <- in_rev in E1.
    apply in_map_iff in E1 as ([m' v'] & Q & Hq). cbn in Q. injection Q as -> ->.
    unfold tag_same in E2. cbn in E2. exfalso. apply (N m v Hq). lia.
Qed.

(** ** Ids of loose fields *)
Lemma take_while_prefix p l : exists r, l = take_while p l ++ r /\ match r with [] => True | x :: _ => p x = false end.
Proof.
  induction l as [|x l (r & E & H)]; cbn; [exists []; auto|].
  destruct (p x) eqn:Ex.
  - exists r. cbn. split; [f_equal; exact E|exact H].
  - exists (x :: l). split; [reflexivity|exact Ex].
Qed.
Lemma sorted_app_lt l r x y : StronglySorted klt (l ++ r) -> In x l -> In y r -> klt x y.
Proof.
  induction l as [|z l IH]; cbn; intros S Hx Hy; [contradiction|].
  inversion S as [|? ? S' F]; subst. destruct Hx as [<-|Hx].
  - rewrite Forall_forall in F. apply F. apply in_or_app. right. exact Hy.
  - apply IH; assumption.
Qed.
Lemma sorted_last l x y : StronglySorted klt (l ++ [x]) -> In y (l ++ [x]) -> y = x \/ klt y x.
Proof.
  intros S H. apply in_app_or in H as [H|[H|[]]]; [right|left; congruence].
  apply (sorted_app_lt l [x]); [exact S|exact H|left; reflexivity].
Qed.

Lemma key_max_ident type : 0 <= type < 31 ->
  normalize_tag (make_tag type max_ident false false false) = 0xFFFF0000 + type * 2048 + 2047.
Proof.
  intros H. assert (E : token_loose type max_ident false false false = Some (make_tag type max_ident false false false)).
  { unfold token_loose. change g_hole with 31. replace (type >=? 31) with false by lia. reflexivity. }
  apply token_loose_normal in E; [exact E|lia|unfold max_ident; lia].
Qed.

Lemma next_id_fresh s log type : SInv s log -> 0 <= type < 31 ->
  (forall e, In e (toks s) -> is_preplaced e = false -> tag2genus e = type -> tag2id e < get_next_loose_id s type) /\
  (get_next_loose_id s type = 0 \/
   exists e, In e (toks s) /\ is_preplaced e = false /\ tag2genus e = type /\ get_next_loose_id s type = tag2id e + 1).
Proof.
  intros I Ht. pose proof (si_table _ _ I) as T. unfold get_next_loose_id. cbv zeta.
  set (ident := make_tag type max_ident false false false).
  set (p := fun e => negb (tag_less ident e)).
  pose proof (key_max_ident type Ht) as K. fold ident in K.
  destruct (take_while_prefix p (toks s)) as (r & E & Hr).
  assert (S : StronglySorted klt (take_while p (toks s) ++ r)) by (rewrite <- E; apply (tb_sort _ _ T)).
  (* every token of the type is in the prefix *)
  assert (IP : forall e, In e (toks s) -> is_preplaced e = false -> tag2genus e = type ->
            In e (take_while p (toks s))).
  { intros e He Pe Ge. rewrite E in He. apply in_app_or in He as [He|He]; [exact He|exfalso].
    destruct r as [|x r]; [contradiction|].
    assert (Le : normalize_tag x <= normalize_tag e).
    { destruct He as [<-|He]; [lia|].
      assert (klt x e); [|unfold klt in *; lia].
      assert (S2 : StronglySorted klt ((take_while p (toks s) ++ [x]) ++ r)) by (rewrite <- app_assoc; exact S).
      apply (sorted_app_lt _ _ _ _ S2); [apply in_or_app; right; left; reflexivity|exact He]. }
    unfold p, tag_less in Hr.
    assert (Re : tagrange e) by (apply (tb_range _ _ T); rewrite E; apply in_or_app; right; exact He).
    pose proof (key_split e Re) as Ke. rewrite Pe in Ke. pose proof (tag_parts e Re). lia. }
  set (tw := take_while p (toks s)) in *.
  assert (Stw : StronglySorted klt tw).
  { clear - S. induction tw as [|x l IH]; [constructor|]. cbn in S. inversion S as [|? ? S' F]; subst.
    constructor; [apply IH, S'|]. rewrite Forall_forall in *. intros y Hy. apply F, in_or_app. left. exact Hy. }
  assert (INt : forall e, In e tw -> In e (toks s)) by (intros e He; rewrite E; apply in_or_app; left; exact He).
  assert (TWP : forall e, In e tw -> p e = true).
  { intros x. subst tw. clear. induction (toks s) as [|y l IHl]; cbn; [intros []|].
    destruct (p y) eqn:Ey; [|intros []]. intros [<-|Hx]; [exact Ey|apply IHl, Hx]. }
  clearbody tw. destruct (rev tw) as [|e q] eqn:Er.
  - assert (tw = []) as -> by (rewrite <- (rev_involutive tw), Er; reflexivity).
    split; [intros e He Pe Ge; destruct (IP e He Pe Ge)|left; reflexivity].
  - assert (Etw : tw = rev q ++ [e]) by (rewrite <- (rev_involutive tw), Er; reflexivity).
    assert (He : In e tw) by (rewrite Etw; apply in_or_app; right; left; reflexivity).
    pose proof (tb_range _ _ T e (INt e He)) as Re.
    destruct (negb (is_preplaced e) && (tag2genus e =? type)) eqn:C.
    + assert (is_preplaced e = false) by (destruct (is_preplaced e); [discriminate|reflexivity]).
      split.
      * intros f Hf Pf Gf. pose proof (IP f Hf Pf Gf) as Hi. rewrite Etw in Hi, Stw.
        destruct (sorted_last _ _ _ Stw Hi) as [->|L]; [lia|]. unfold klt in L.
        pose proof (tb_range _ _ T f Hf) as Rf.
        rewrite (key_split e Re), (key_split f Rf), Pf, H in L. lia.
      * right. exists e. split; [apply INt, He|]. split; [assumption|]. split; [lia|reflexivity].
    + split; [|left; reflexivity]. intros f Hf Pf Gf. exfalso.
      pose proof (IP f Hf Pf Gf) as Hi. rewrite Etw in Hi, Stw.
      pose proof (tb_range _ _ T f Hf) as Rf.
      destruct (sorted_last _ _ _ Stw Hi) as [->|L]; [rewrite Pf in C; lia|]. unfold klt in L.
      assert (Le : normalize_tag e <= normalize_tag ident).
      { pose proof (TWP e He) as Q. unfold p, tag_less in Q. lia. }
      pose proof (key_split f Rf) as Kf. rewrite Pf in Kf.
      pose proof (key_split e Re) as Ke. pose proof (key_bounds e Re) as Be.
      pose proof (tag_parts f Rf) as Tf. destruct (is_preplaced e); [rewrite Kf in L; lia|].
      pose proof (tag_parts e Re). pose proof (tag_parts f Rf). lia.
Qed.

(** ** Definitions that have to succeed do succeed *)
Lemma fresh_name s log n : SInv s log -> ~ In n (map fst log) ->
  existsb (fun p => name_eqb (fst p) n) (n2t s) = false.
Proof.
  intros I H. apply existsb_false. intros [m u] Hp. rewrite (si_n2t _ _ I), <- in_rev in Hp. cbn [fst].
  destruct (name_eqb m n) eqn:E; [|reflexivity]. apply name_eqb_eq in E. subst m. exfalso. apply H.
  apply in_map_iff. exists (n, u). split; [reflexivity|exact Hp].
Qed.
Lemma fresh_key s log ident : SInv s log ->
  (forall t, In t (toks s) -> normalize_tag t <> normalize_tag ident) ->
  existsb (fun p => tag_same (fst p) ident) (t2n s) = false.
Proof.
  intros I H. apply existsb_false. intros [u m] Hp. rewrite (si_t2n _ _ I), <- in_rev in Hp. cbn [fst].
  apply in_map_iff in Hp as ([m' u'] & Q & Hp). cbn in Q. injection Q as -> ->.
  unfold tag_same. assert (normalize_tag u <> normalize_tag ident); [|lia]. apply H.
  apply (Permutation_in _ (Permutation_sym (si_perm _ _ I))). apply in_map_iff.
  exists (m, u). split; [reflexivity|exact Hp].
Qed.

Lemma erased_length g disc : 0 <= g < 31 -> zlen (erased g disc) = preplaced_bytes g.
Proof.
  intros H. unfold zlen, erased.
  destruct (disc && negb (g =? g_ipnet)) eqn:E.
  - assert (A : all_below 31 (fun g => (g =? g_ipnet) || (Z.of_nat (length (denil g)) =? preplaced_bytes g)) = true)
      by (vm_compute; reflexivity).
    pose proof (all_below_spec _ _ A g ltac:(lia)) as B. cbv beta in B. lia.
  - rewrite repeat_length. pose proof (preplaced_bytes_bound g). lia.
Qed.
Lemma width_cases g : 0 <= g < 31 ->
  (width_align g = 1 \/ width_align g = 2 \/ width_align g = 4) /\ width_align g <= preplaced_bytes g /\
  preplaced_bytes g mod width_align g = 0 /\ (g < 4 -> width_align g = 4).
Proof.
  intros H.
  assert (A : all_below 31 (fun g => ((width_align g =? 1) || (width_align g =? 2) || (width_align g =? 4)) &&
     (width_align g <=? preplaced_bytes g) && (preplaced_bytes g mod width_align g =? 0) &&
     ((4 <=? g) || (width_align g =? 4))) = true) by (vm_compute; reflexivity).
  pose proof (all_below_spec _ _ A g ltac:(lia)) as B. cbv beta in B.
  set (w := width_align g) in *. set (b := preplaced_bytes g) in *. set (m := b mod w) in *.
  clearbody m w b. lia.
Qed.
Lemma aligned_width u g : 0 <= u -> 0 <= g < 31 ->
  aligned u (width_align g) mod width_align g = 0 /\ u <= aligned u (width_align g) <= u + 3.
Proof.
  intros Hu Hg. destruct (width_cases g Hg) as ([E|[E|E]] & _); rewrite E.
  - rewrite aligned1. split; [apply Z.mod_1_r|lia].
  - pose proof (aligned2 u Hu) as [A B]. pose proof (aligned_ge u 2 ltac:(lia)). split; [exact A|lia].
  - pose proof (aligned4 u Hu) as [A B]. pose proof (aligned_ge u 4 ltac:(lia)). split; [exact A|lia].
Qed.

Lemma no_collision_free ident l : 0 < tag2indysize ident ->
  (forall t, In t l -> is_preplaced t = true -> ending t <= tag2offset ident) -> no_collision ident l = true.
Proof.
  intros Sz H. induction l as [|x r IH]; [reflexivity|]. cbn [no_collision].
  destruct (is_preplaced x) eqn:E; [|reflexivity]. cbn [negb].
  pose proof (H x (or_introl eq_refl) E) as Hx. unfold ending in Hx.
  replace (is_crossing ident x) with false.
  2:{ unfold is_crossing, is_inside.
      set (o := tag2offset ident) in *. set (n := tag2indysize ident) in *.
      replace (o <? tag2offset x + tag2indysize x) with false by lia.
      replace (o + n - 1 <? tag2offset x + tag2indysize x) with false by lia.
      rewrite !andb_false_r. reflexivity. }
  replace (is_overlapped ident x) with false.
  2:{ unfold is_overlapped. destruct (_ <=? _); [reflexivity|].
      replace (tag2offset ident >=? tag2offset x + tag2indysize x) with true by lia. reflexivity. }
  rewrite andb_false_r. apply IH. intros t Ht. apply H. right. exact Ht.
Qed.

Lemma nth_table (f : nat -> Z) n k : (k < n)%nat -> nth k (map f (seq 0 n)) 0 = f k.
Proof.
  intros H. rewrite (nth_indep _ 0 (f 0%nat)) by (rewrite map_length, seq_length; exact H).
  rewrite map_nth, seq_nth by exact H. reflexivity.
Qed.
Lemma overwrite_tail l r e : length e = length r -> overwrite (l ++ r) (zlen l) e = l ++ e.
Proof.
  intros H. unfold overwrite, zlen. apply (nth_ext _ _ 0 0).
  - rewrite map_length, seq_length, !app_length. lia.
  - rewrite map_length, seq_length. intros n Hn.
    rewrite nth_table by exact Hn. cbv zeta.
    rewrite app_length in Hn.
    destruct (Nat.ltb_spec n (length l)) as [L|G].
    + replace (Z.of_nat (length l) <=? Z.of_nat n) with false by lia. cbn [andb].
      rewrite !app_nth1 by exact L. reflexivity.
    + replace ((Z.of_nat (length l) <=? Z.of_nat n) && (Z.of_nat n <? Z.of_nat (length l) + Z.of_nat (length e)))
        with true by lia.
      rewrite (app_nth2 _ _ _ G). f_equal. lia.
Qed.

(** the bytes a field starts with *)
Definition starts_with (g : Z) (disc : bool) (init : option (list Z)) : list Z :=
  match init with Some v => given v (preplaced_bytes g) | None => erased g disc end.
Lemma starts_length g disc init : 0 <= g < 31 -> zlen (starts_with g disc init) = preplaced_bytes g.
Proof.
  intros H. destruct init as [v|]; cbn; [|apply erased_length, H].
  unfold given, zlen. rewrite map_length, seq_length. pose proof (preplaced_bytes_bound g). lia.
Qed.

Lemma new_image_end im ident init :
  tagrange ident -> zlen im <= tag2offset ident -> 0 <= tag2genus ident < 31 ->
  tag2indysize ident = preplaced_bytes (tag2genus ident) ->
  new_image im ident init =
    Some (im ++ repeat 0 (Z.to_nat (tag2offset ident - zlen im)) ++
          starts_with (tag2genus ident) (is_discernible_null ident) init).
Proof.
  intros R L G E. unfold new_image. cbv zeta. rewrite E. destruct init as [v|]; cbn [starts_with].
  - rewrite <- app_assoc. reflexivity.
  - replace (tag2genus ident =? g_hole) with false by (change g_hole with 31; lia).
    set (e := erased (tag2genus ident) (is_discernible_null ident)).
    assert (Le : zlen e = preplaced_bytes (tag2genus ident)) by (apply erased_length, G).
    pose proof (preplaced_bytes_bound (tag2genus ident)) as PB.
    set (b := preplaced_bytes (tag2genus ident)) in *.
    set (im1 := im ++ repeat 0 (Z.to_nat (tag2offset ident - zlen im))).
    assert (L1 : zlen im1 = tag2offset ident).
    { subst im1. unfold zlen in *. rewrite app_length, repeat_length. lia. }
    rewrite <- L1.
    replace (zlen im1 + zlen e <=? zlen (im1 ++ repeat 0 (Z.to_nat b))) with true.
    2:{ unfold zlen in *. rewrite app_length, repeat_length. lia. }
    rewrite overwrite_tail by (unfold zlen in *; rewrite repeat_length; lia).
    subst im1. rewrite L1. rewrite <- app_assoc. reflexivity.
Qed.

Lemma define_preplaced_accepted s log n g disc sat init :
  SInv s log -> 0 <= g < 31 -> zlen n <= 42 -> ~ In n (map fst log) ->
  aligned (bytes_of s) (width_align g) <= 16381 ->
  exists t s', define_preplaced s n g disc sat init = Defined t s'.
Proof.
  intros I Hg Ln Nn Ho. unfold define_preplaced.
  replace (g >=? g_hole) with false by (change g_hole with 31; lia). cbv zeta. fold (width_align g).
  pose proof (aligned_width (bytes_of s) g ltac:(unfold bytes_of; apply zlen_nonneg) Hg) as (_ & A).
  pose proof (zlen_nonneg (image s)) as Zi. fold (bytes_of s) in Zi.
  set (o := aligned (bytes_of s) (width_align g)) in *.
  replace (o >? max_preplaced_offset) with false by (change max_preplaced_offset with 16381; lia).
  destruct (token_preplaced o g disc sat) as [ident|] eqn:E.
  2:{ exfalso. unfold token_preplaced in E. change max_preplaced_offset with 16381 in E.
      change g_hole with 31 in E. unfold u64 in E. rewrite Z.mod_small in E by lia.
      replace (o >? 16381) with false in E by lia. replace (g >? 31) with false in E by lia. discriminate. }
  pose proof (token_preplaced_fields _ _ _ _ _ E ltac:(lia) ltac:(lia)) as (P & _ & _ & Gn & O & Sz & _ & Di & _).
  assert (R : tagrange ident).
  { apply token_preplaced_val in E as (X & Y & V); [|lia|lia]. pose proof (preplaced_bytes_bound g).
    unfold tagrange. rewrite V. destruct disc, sat; lia. }
  destruct (width_cases g Hg) as (W & Wb & _).
  unfold add_definition. replace (zlen n >? 42) with false by lia.
  rewrite (fresh_name s log n I Nn).
  assert (Ends : forall t, In t (toks s) -> is_preplaced t = true -> ending t <= tag2offset ident).
  { intros t Ht Pt. pose proof (si_image _ _ I t Ht Pt). lia. }
  rewrite (fresh_key s log ident I).
  2:{ intros t Ht Q. pose proof (tb_range _ _ (si_table _ _ I) t Ht) as Rt.
      rewrite (key_split t Rt), (key_split ident R), P in Q.
      pose proof (tag_parts t Rt). pose proof (tag_parts ident R).
      destruct (is_preplaced t) eqn:Pt; [|specialize (proj2 (proj2 (proj2 (proj2 H0))) P); lia].
      pose proof (Ends t Ht Pt). unfold ending in *. lia. }
  rewrite P. rewrite no_collision_free by (try exact Ends; lia).
  replace (reserve_ok (image s) ident) with true by (unfold reserve_ok, bytes_of in *; lia). cbn [negb].
  rewrite new_image_end; [eauto|exact R|unfold bytes_of in *; lia|lia|rewrite Gn; exact Sz].
Qed.

Lemma define_loose_accepted s log n g c d sat :
  SInv s log -> 0 <= g < 31 -> zlen n <= 42 -> ~ In n (map fst log) ->
  get_next_loose_id s g < 1024 ->
  exists t s', define_loose s n g c d sat = Defined t s' /\ tag2id t = get_next_loose_id s g /\ tag2genus t = g.
Proof.
  intros I Hg Ln Nn Hi. unfold define_loose.
  replace (g >=? g_hole) with false by (change g_hole with 31; lia). cbv zeta.
  replace (get_next_loose_id s g >=? loose_end) with false by (unfold loose_end; lia).
  destruct (next_id_fresh s log g I Hg) as (F1 & F2).
  assert (N0 : 0 <= get_next_loose_id s g).
  { destruct F2 as [->|(e & He & _ & _ & ->)]; [lia|].
    pose proof (tag_parts e (tb_range _ _ (si_table _ _ I) e He)). lia. }
  set (id := get_next_loose_id s g) in *.
  destruct (token_loose g id c d sat) as [ident|] eqn:E.
  2:{ exfalso. unfold token_loose in E. change g_hole with 31 in E. unfold max_ident in E.
      replace (g >=? 31) with false in E by lia. replace (id >? 2047) with false in E by lia. discriminate. }
  pose proof (token_loose_fields _ _ _ _ _ _ E ltac:(lia) N0) as (_ & P & Gn & Id & _).
  assert (R : tagrange ident).
  { apply token_loose_val in E as (X & Y & V); [|lia|lia]. unfold tagrange. rewrite V. destruct c, d, sat; lia. }
  unfold add_definition. replace (zlen n >? 42) with false by lia.
  rewrite (fresh_name s log n I Nn).
  rewrite (fresh_key s log ident I).
  2:{ intros t Ht Q. pose proof (tb_range _ _ (si_table _ _ I) t Ht) as Rt.
      pose proof (key_bounds t Rt) as Bt. pose proof (key_bounds ident R) as Bi. rewrite P in Bi.
      destruct (is_preplaced t) eqn:Pt; [lia|].
      rewrite (key_split t Rt), (key_split ident R), P, Pt in Q.
      pose proof (tag_parts t Rt). pose proof (tag_parts ident R).
      assert (tag2genus t = g) by lia. specialize (F1 t Ht Pt H1). lia. }
  rewrite P. eexists _, _. split; [reflexivity|]. split; assumption.
Qed.

(** ** The image of histories without tokens from outside *)
Definition tame (d : def) : Prop :=
  match d with DImport _ ident _ false => is_preplaced ident = false | _ => True end.

Lemma given_nil v : given v 0 = [].
Proof. reflexivity. Qed.

Lemma preplaced_bytes_pos g : 0 <= g < 31 -> 0 < preplaced_bytes g.
Proof. intros H. destruct (width_cases g H) as (W & Wb & _). lia. Qed.

Lemma define_preplaced_image s n g disc sat init t s' :
  0 <= g <= 31 -> define_preplaced s n g disc sat init = Defined t s' ->
  tag2offset t = aligned (bytes_of s) (width_align g) /\ g < 31 /\
  is_preplaced t = true /\ tag2genus t = g /\ tag2indysize t = preplaced_bytes g /\
  is_discernible_null t = disc /\ is_saturated t = sat /\
  image s' = image s ++ repeat 0 (Z.to_nat (tag2offset t - bytes_of s)) ++ starts_with g disc init.
Proof.
  intros Hg H. apply define_preplaced_inv in H as (A & G & E & O & R); [|exact Hg].
  pose proof (token_preplaced_fields _ _ _ _ _ E ltac:(lia) ltac:(lia)) as (P & _ & _ & Gn & Of & Sz & _ & Di & Sa).
  repeat (split; [assumption|]).
  apply add_defined in A as (_ & _ & _ & _ & im & Rm & ->). cbn [image].
  unfold room in Rm. rewrite P in Rm. destruct Rm as (_ & _ & Im).
  pose proof (aligned_width (bytes_of s) g ltac:(unfold bytes_of; apply zlen_nonneg) ltac:(lia)) as (_ & Al).
  rewrite new_image_end in Im; [|exact R|unfold bytes_of in *; lia|lia|rewrite Gn; exact Sz].
  apply some_eq in Im. rewrite <- Im, Gn, Di. reflexivity.
Qed.

Lemma tame_extends s d t s' :
  wf_def d -> tame d -> (forall e, In e (toks s) -> tagrange e) -> define s d = Defined t s' ->
  exists e, image s' = image s ++ e.
Proof.
  intros W TM R H.
  assert (LO : forall n g c di sa, 0 <= g <= 31 -> define_loose s n g c di sa = Defined t s' -> exists e, image s' = image s ++ e).
  { intros n g c di sa Hg Hd. apply define_loose_inv in Hd as (A & _ & P); [|exact Hg|exact R].
    apply add_defined in A as (_ & _ & _ & _ & im & Rm & ->). unfold room in Rm. rewrite P in Rm.
    exists []. cbn [image]. rewrite app_nil_r. exact Rm. }
  destruct d as [n g di sa init|n size al init|n g c di sa|n ident init ren]; cbn [define wf_def tame] in *.
  - apply define_preplaced_image in H as (_ & _ & _ & _ & _ & _ & _ & E); [|exact W]. eauto.
  - apply define_opacity_inv in H as (A & Rt & P & G & Sz & O); [|apply W|apply W].
    apply add_defined in A as (_ & _ & _ & _ & im & Rm & ->). unfold room in Rm. rewrite P in Rm.
    destruct Rm as (_ & _ & Im). unfold new_image in Im. cbv zeta in Im. rewrite Sz, G in Im.
    destruct init as [v|]; [|discriminate]. rewrite given_nil, app_nil_r in Im.
    apply some_eq in Im. cbn [image]. eauto.
  - apply (LO n g c di sa W H).
  - unfold import_definition in H. pose proof (tag_parts _ W) as P. destruct ren; cbn [negb] in H.
    + destruct (is_preplaced ident).
      * destruct (tag2genus ident =? g_hole); [discriminate|].
        apply define_preplaced_image in H as (_ & _ & _ & _ & _ & _ & _ & E); [|lia]. eauto.
      * refine (LO _ _ _ _ _ _ H). lia.
    + apply add_defined in H as (_ & _ & _ & _ & im & Rm & ->). unfold room in Rm. rewrite TM in Rm.
      exists []. cbn [image]. rewrite app_nil_r. exact Rm.
Qed.

Lemma tame_history ds s log s' log' :
  SInv s log -> Forall wf_def ds -> Forall tame ds -> definitions s ds = Some (s', log') ->
  exists e, image s' = image s ++ e.
Proof.
  revert s log log'. induction ds as [|d r IH]; intros s log log' I W TM H; cbn in H.
  - injection H as <- <-. exists []. rewrite app_nil_r. reflexivity.
  - inversion W as [|? ? W1 W2]; subst. inversion TM as [|? ? T1 T2]; subst.
    destruct (define s d) as [t s1| |] eqn:E; [| |discriminate].
    + destruct (definitions s1 r) as [[s2 lg]|] eqn:E2; [|discriminate].
      injection H as <- <-. pose proof (tb_range _ _ (si_table _ _ I)) as TR.
      destruct (tame_extends _ _ _ _ W1 T1 TR E) as (e1 & X1).
      apply define_inv in E as (R & init & A); [|exact W1|exact TR].
      destruct (IH s1 (log ++ [(def_name d, t)]) lg (inv_step _ _ _ _ _ _ _ I R A) W2 T2 E2) as (e2 & X2).
      exists (e1 ++ e2). rewrite X2, X1, app_assoc. reflexivity.
    + apply (IH s log log'); assumption.
Qed.

(** the preplaced tokens of such a history are those of [define_preplaced] and of opaque structures *)
Definition regular (t : Z) : Prop :=
  is_preplaced t = true ->
  tag2genus t = g_hole \/
  (0 <= tag2genus t < 31 /\ tag2indysize t = preplaced_bytes (tag2genus t) /\
   tag2offset t mod width_align (tag2genus t) = 0).
Lemma tame_regular s d t s' :
  wf_def d -> tame d -> (forall e, In e (toks s) -> tagrange e) -> define s d = Defined t s' -> regular t.
Proof.
  intros W TM R H P.
  assert (LO : forall n g c di sa, 0 <= g <= 31 -> define_loose s n g c di sa = Defined t s' -> is_preplaced t = false).
  { intros n g c di sa Hg Hd. apply define_loose_inv in Hd as (_ & _ & Q); [|exact Hg|exact R]. exact Q. }
  assert (PR : forall n g di sa init, 0 <= g <= 31 -> define_preplaced s n g di sa init = Defined t s' ->
     0 <= tag2genus t < 31 /\ tag2indysize t = preplaced_bytes (tag2genus t) /\
     tag2offset t mod width_align (tag2genus t) = 0).
  { intros n g di sa init Hg Hd. apply define_preplaced_image in Hd as (O & G & _ & Gn & Sz & _); [|exact Hg].
    rewrite Gn, O. split; [lia|]. split; [exact Sz|].
    apply aligned_width; [unfold bytes_of; apply zlen_nonneg|lia]. }
  destruct d as [n g di sa init|n size al init|n g c di sa|n ident init ren]; cbn [define wf_def tame] in *.
  - right. eapply PR; eassumption.
  - left. apply define_opacity_inv in H as (_ & _ & _ & G & _); [exact G|apply W|apply W].
  - rewrite (LO _ _ _ _ _ W H) in P. discriminate.
  - unfold import_definition in H. pose proof (tag_parts _ W) as TP. destruct ren; cbn [negb] in H.
    + destruct (is_preplaced ident).
      * destruct (tag2genus ident =? g_hole); [discriminate|]. right. eapply PR; [|eassumption]. lia.
      * assert (GB : 0 <= tag2genus ident <= 31) by lia. rewrite (LO _ _ _ _ _ GB H) in P. discriminate.
    + apply add_defined in H as (-> & _). congruence.
Qed.
Lemma tame_log ds s log s' log' :
  SInv s log -> Forall wf_def ds -> Forall tame ds -> definitions s ds = Some (s', log') ->
  forall p, In p log' -> regular (snd p).
Proof.
  revert s log log'. induction ds as [|d r IH]; intros s log log' I W TM H; cbn in H.
  - injection H as <- <-. intros p [].
  - inversion W as [|? ? W1 W2]; subst. inversion TM as [|? ? T1 T2]; subst.
    destruct (define s d) as [t s1| |] eqn:E; [| |discriminate].
    + destruct (definitions s1 r) as [[s2 lg]|] eqn:E2; [|discriminate].
      injection H as <- <-. pose proof (tb_range _ _ (si_table _ _ I)) as TR.
      pose proof (tame_regular _ _ _ _ W1 T1 TR E) as Rg.
      apply define_inv in E as (R & init & A); [|exact W1|exact TR].
      intros p [<-|Hp]; [exact Rg|].
      exact (IH s1 (log ++ [(def_name d, t)]) lg (inv_step _ _ _ _ _ _ _ I R A) W2 T2 E2 p Hp).
    + apply (IH s log log'); assumption.
Qed.

(** ** Attributes do not change the field a token denotes *)
Lemma same_parts a b : tagrange a -> tagrange b -> a / 2 ^ 18 = b / 2 ^ 18 -> a mod 2 ^ 16 = b mod 2 ^ 16 ->
  normalize_tag a = normalize_tag b.
Proof.
  intros Ra Rb E1 E2. assert (P : is_preplaced a = is_preplaced b).
  { unfold is_preplaced. rewrite loose_threshold_val. lia. }
  rewrite (key_split a Ra), (key_split b Rb), P. destruct (is_preplaced b).
  - rewrite !tag2offset_arith, !tag2genus_arith, !tag2indysize_arith. lia.
  - rewrite !tag2genus_arith. rewrite !tag2id_arith. lia.
Qed.
Lemma set_flag t m : tagrange t -> m = 1 \/ m = 2 ->
  let u := Z.lor t (m * 2 ^ 16) in tagrange u /\ u / 2 ^ 18 = t / 2 ^ 18 /\ u mod 2 ^ 16 = t mod 2 ^ 16.
Proof.
  intros R M. unfold tagrange in *. cbv zeta.
  replace (Z.lor t (m * 2 ^ 16)) with (((t / 2 ^ 18) * 2 ^ 2 + Z.lor ((t / 2 ^ 16) mod 2 ^ 2) m) * 2 ^ 16 + t mod 2 ^ 16).
  { assert (B : 0 <= Z.lor ((t / 2 ^ 16) mod 2 ^ 2) m < 2 ^ 2) by (apply lor_bound; lia).
    set (x := Z.lor ((t / 2 ^ 16) mod 2 ^ 2) m) in *. clearbody x. lia. }
  replace t with ((t / 2 ^ 16) * 2 ^ 16 + t mod 2 ^ 16) at 4 by lia.
  replace (m * 2 ^ 16) with (m * 2 ^ 16 + 0) by lia. rewrite lor_split by lia. rewrite Z.lor_0_r.
  do 2 f_equal. replace (t / 2 ^ 16) with ((t / 2 ^ 18) * 2 ^ 2 + (t / 2 ^ 16) mod 2 ^ 2) at 2 by lia.
  replace m with (0 * 2 ^ 2 + m) at 2 by lia. rewrite lor_split by lia. rewrite Z.lor_0_r. reflexivity.
Qed.
Lemma clear_flag t m : tagrange t -> m = 1 \/ m = 2 ->
  let u := Z.land t (2 ^ 32 - 1 - m * 2 ^ 16) in
  tagrange u /\ u / 2 ^ 18 = t / 2 ^ 18 /\ u mod 2 ^ 16 = t mod 2 ^ 16.
Proof.
  intros R M. unfold tagrange in *. cbv zeta.
  replace (Z.land t (2 ^ 32 - 1 - m * 2 ^ 16))
    with (((t / 2 ^ 18) * 2 ^ 2 + Z.land ((t / 2 ^ 16) mod 2 ^ 2) (3 - m)) * 2 ^ 16 + t mod 2 ^ 16).
  { assert (B : 0 <= Z.land ((t / 2 ^ 16) mod 2 ^ 2) (3 - m) <= 3 - m) by (apply land_bound_r; lia).
    set (x := Z.land ((t / 2 ^ 16) mod 2 ^ 2) (3 - m)) in *. clearbody x. lia. }
  replace t with ((t / 2 ^ 16) * 2 ^ 16 + t mod 2 ^ 16) at 4 by lia.
  replace (2 ^ 32 - 1 - m * 2 ^ 16) with ((0xFFFF - m) * 2 ^ 16 + (2 ^ 16 - 1)) by lia.
  rewrite land_split by lia. rewrite (land_mask (t mod 2 ^ 16) 16) by lia. rewrite Z.mod_mod by lia.
  do 2 f_equal. replace (t / 2 ^ 16) with ((t / 2 ^ 18) * 2 ^ 2 + (t / 2 ^ 16) mod 2 ^ 2) at 2 by lia.
  replace (0xFFFF - m) with ((2 ^ 14 - 1) * 2 ^ 2 + (3 - m)) by lia.
  rewrite land_split by lia. rewrite (land_mask (t / 2 ^ 18) 14) by lia. rewrite (Z.mod_small (t / 2 ^ 18)) by lia.
  reflexivity.
Qed.
Lemma enforce_null_keeps u b : tagrange u ->
  tagrange (enforce_discernible_null u b) /\ normalize_tag (enforce_discernible_null u b) = normalize_tag u.
Proof.
  intros R. unfold enforce_discernible_null. change discernible_null_flag with (1 * 2 ^ 16).
  destruct b.
  - destruct (set_flag u 1 R) as (A & B & C); [auto|]. split; [exact A|]. apply same_parts; assumption.
  - destruct (clear_flag u 1 R) as (A & B & C); [auto|]. split; [exact A|]. apply same_parts; assumption.
Qed.
Lemma enforce_sat_keeps u b : tagrange u ->
  tagrange (enforce_saturation u b) /\ normalize_tag (enforce_saturation u b) = normalize_tag u.
Proof.
  intros R. unfold enforce_saturation. change saturation_flag with (2 * 2 ^ 16).
  destruct b.
  - destruct (set_flag u 2 R) as (A & B & C); [auto|]. split; [exact A|]. apply same_parts; assumption.
  - destruct (clear_flag u 2 R) as (A & B & C); [auto|]. split; [exact A|]. apply same_parts; assumption.
Qed.

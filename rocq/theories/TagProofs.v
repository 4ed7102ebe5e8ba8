(** * Proofs about field tags. *)
From Verif Require Import Base Tag.
From Coq Require Import ZifyBool ZifyNat.
Ltac Zify.zify_post_hook ::= Z.div_mod_to_equations.

(** ** Arithmetic normal form of every tag operation *)
Lemma land_bit x k : 0 <= k -> Z.land x (2 ^ k) = (x / 2 ^ k) mod 2 * 2 ^ k.
Proof.
  intros Hk. apply Z.bits_inj'. intros i Hi.
  rewrite Z.land_spec, Z.pow2_bits_eqb by lia.
  rewrite <- Z.shiftl_mul_pow2 by lia. rewrite Z.shiftl_spec by lia.
  destruct (Z.eqb_spec k i) as [->|N].
  - rewrite andb_true_r, Z.sub_diag.
    rewrite <- Z.testbit_spec' by lia.
    destruct (Z.testbit x i); reflexivity.
  - rewrite andb_false_r. symmetry.
    destruct (Z.lt_ge_cases i k) as [L|G]; [apply Z.testbit_neg_r; lia|].
    rewrite <- Z.testbit_spec' by lia.
    destruct (Z.testbit x k); cbn [Z.b2z]; [|apply Z.testbit_0_l].
    change 1 with (2 ^ 0) at 1. rewrite Z.pow2_bits_eqb by lia. lia.
Qed.

Lemma is_discernible_null_arith t : is_discernible_null t = ((t / 2 ^ 16) mod 2 =? 1).
Proof.
  unfold is_discernible_null, discernible_null_flag. rewrite Z.shiftl_mul_pow2 by lia.
  rewrite Z.mul_1_l, land_bit by lia. lia.
Qed.
Lemma is_saturated_arith t : is_saturated t = ((t / 2 ^ 17) mod 2 =? 1).
Proof.
  unfold is_saturated, saturation_flag. rewrite Z.shiftl_mul_pow2 by lia.
  rewrite Z.mul_1_l, land_bit by lia. lia.
Qed.
Lemma tag2genus_arith t : tag2genus t = (t mod 2 ^ 16) / 2 ^ 11.
Proof. unfold tag2genus, u16, genus_shift. rewrite Z.shiftr_div_pow2 by lia. reflexivity. Qed.
Lemma tag2id_arith t : tag2id t = t mod 2 ^ 11.
Proof. unfold tag2id, id_mask. apply (land_mask t 11). lia. Qed.
Lemma tag2indysize_arith t : tag2indysize t = t mod 2 ^ 11.
Proof. unfold tag2indysize, id_mask. apply (land_mask t 11). lia. Qed.
Lemma tag2offset_arith t : tag2offset t = t / 2 ^ 18.
Proof. unfold tag2offset, offset_shift. rewrite Z.shiftr_div_pow2 by lia. reflexivity. Qed.
Lemma descriptor2id_arith d : descriptor2id d = d mod 2 ^ 11.
Proof. unfold descriptor2id, id_mask. apply (land_mask d 11). lia. Qed.
Lemma descriptor2genus_arith d : descriptor2genus d = d / 2 ^ 11.
Proof. unfold descriptor2genus, genus_shift. rewrite Z.shiftr_div_pow2 by lia. reflexivity. Qed.

Lemma land_E000 t : 0 <= t -> Z.land t 0xE000 = (t mod 2 ^ 16 / 2 ^ 13) * 2 ^ 13.
Proof.
  intros Ht.
  replace t with ((t / 2 ^ 16) * 2 ^ 16 + t mod 2 ^ 16) at 1 by lia.
  change 0xE000 with (0 * 2 ^ 16 + 0xE000).
  rewrite land_split by lia. rewrite Z.land_0_r, Z.mul_0_l, Z.add_0_l.
  set (y := t mod 2 ^ 16). assert (0 <= y < 2 ^ 16) by (subst y; lia).
  replace y with ((y / 2 ^ 13) * 2 ^ 13 + y mod 2 ^ 13) at 1 by lia.
  change 0xE000 with (7 * 2 ^ 13 + 0).
  rewrite land_split by lia. rewrite Z.land_0_r, Z.add_0_r. f_equal.
  change 7 with (2 ^ 3 - 1). rewrite land_mask by lia. apply Z.mod_small. lia.
Qed.

Lemma is_fixed_size_arith t : 0 <= t -> is_fixed_size t = (4 <=? tag2genus t).
Proof. intros Ht. unfold is_fixed_size. rewrite land_E000, tag2genus_arith by lia. lia. Qed.

Lemma loose_threshold_val : loose_threshold = 0xFFF80000. Proof. reflexivity. Qed.
Lemma collection_threshold_val : collection_threshold = 0xFFFC0000. Proof. reflexivity. Qed.

Lemma flag_val b f : flag b f = (if b then 1 else 0) * f.
Proof. destruct b; cbn [flag]; lia. Qed.

Lemma lor3_small y : 0 <= y < 4 -> Z.lor y 3 = 3.
Proof.
  intros H. assert (E : all_below 4 (fun y => Z.lor y 3 =? 3) = true) by (vm_compute; reflexivity).
  pose proof (all_below_spec _ _ E y). lia.
Qed.
Lemma lor7_small y : 0 <= y < 8 -> Z.lor y 7 = 7.
Proof.
  intros H. assert (E : all_below 8 (fun y => Z.lor y 7 =? 7) = true) by (vm_compute; reflexivity).
  pose proof (all_below_spec _ _ E y). lia.
Qed.

Lemma normalize_preplaced t :
  0 <= t < loose_threshold -> normalize_tag t = (t / 2 ^ 18) * 2 ^ 18 + 3 * 2 ^ 16 + t mod 2 ^ 16.
Proof.
  intros Ht. unfold normalize_tag, is_preplaced.
  replace (t <? loose_threshold) with true by lia.
  change (Z.lor discernible_null_flag saturation_flag) with (3 * 2 ^ 16 + 0).
  replace t with ((t / 2 ^ 16) * 2 ^ 16 + t mod 2 ^ 16) at 1 by lia.
  rewrite lor_split by lia. rewrite Z.lor_0_r.
  set (h := t / 2 ^ 16). replace h with ((h / 2 ^ 2) * 2 ^ 2 + h mod 2 ^ 2) at 1 by lia.
  change 3 with (0 * 2 ^ 2 + 3) at 1. rewrite lor_split by lia.
  rewrite Z.lor_0_r, lor3_small by lia. subst h. lia.
Qed.

Lemma normalize_loose t :
  loose_threshold <= t < 2 ^ 32 -> normalize_tag t = 0xFFFF0000 + t mod 2 ^ 16.
Proof.
  rewrite loose_threshold_val. intros Ht. unfold normalize_tag, is_preplaced.
  rewrite loose_threshold_val. replace (t <? 0xFFF80000) with false by lia.
  change (Z.lor (Z.lor discernible_null_flag saturation_flag) loose_collection_flag) with (7 * 2 ^ 16 + 0).
  replace t with ((t / 2 ^ 16) * 2 ^ 16 + t mod 2 ^ 16) at 1 by lia.
  rewrite lor_split by lia. rewrite Z.lor_0_r.
  set (h := t / 2 ^ 16). replace h with ((h / 2 ^ 3) * 2 ^ 3 + h mod 2 ^ 3) at 1 by lia.
  change 7 with (0 * 2 ^ 3 + 7) at 1. rewrite lor_split by lia.
  rewrite Z.lor_0_r, lor7_small by lia. subst h. lia.
Qed.

(** ** Loose tokens *)
Section Loose.
  Variables (g id : Z) (c d s : bool) (t : Z).
  Hypothesis Htok : token_loose g id c d s = Some t.
  Hypothesis Hg : 0 <= g.
  Hypothesis Hid : 0 <= id.

  Lemma token_loose_val :
    g < 31 /\ id <= 2047 /\
    t = 0xFFF80000 + g * 2048 + id + (if c then 0x40000 else 0)
        + (if d then 0x10000 else 0) + (if s then 0x20000 else 0).
  Proof.
    unfold token_loose in Htok. change g_hole with 31 in Htok. unfold max_ident in Htok.
    destruct (g >=? 31) eqn:E1; [discriminate|]. destruct (id >? 2047) eqn:E2; [discriminate|].
    injection Htok as <-. split; [lia|]. split; [lia|].
    unfold make_tag, u32. rewrite loose_threshold_val.
    change discernible_null_flag with 0x10000. change saturation_flag with 0x20000.
    change loose_collection_flag with 0x40000. unfold genus_shift.
    rewrite Z.shiftl_mul_pow2 by lia. change (2 ^ 11) with 2048.
    rewrite Z.mod_small by (destruct c, d, s; cbn [flag]; lia).
    destruct c, d, s; cbn [flag]; lia.
  Qed.

  Lemma token_loose_fields :
    is_loose t = true /\ is_preplaced t = false /\
    tag2genus t = g /\ tag2id t = id /\
    is_loose_collection t = c /\ is_discernible_null t = d /\ is_saturated t = s.
  Proof.
    destruct token_loose_val as (H1 & H2 & Ht).
    unfold is_loose, is_preplaced, is_loose_collection.
    rewrite tag2genus_arith, tag2id_arith, is_discernible_null_arith, is_saturated_arith.
    rewrite loose_threshold_val, collection_threshold_val.
    rewrite Ht. clear Ht Htok.
    repeat split; destruct c, d, s; lia.
  Qed.

  Lemma token_loose_normal : normalize_tag t = 0xFFFF0000 + g * 2048 + id.
  Proof.
    destruct token_loose_val as (H1 & H2 & Ht).
    rewrite normalize_loose.
    - rewrite Ht. clear Ht Htok. destruct c, d, s; lia.
    - rewrite Ht, loose_threshold_val. clear Ht Htok. destruct c, d, s; lia.
  Qed.
End Loose.

Lemma preplaced_bytes_bound g : 0 <= preplaced_bytes g <= 64.
Proof.
  unfold preplaced_bytes.
  destruct g as [|p|p]; try lia.
  do 5 (destruct p as [p|p|]; try lia).
Qed.

(** ** Preplaced tokens *)
Section Preplaced.
  Variables (off g : Z) (d s : bool) (t : Z).
  Hypothesis Htok : token_preplaced off g d s = Some t.
  Hypothesis Hoff : - 2 ^ 63 <= off < 2 ^ 63.
  Hypothesis Hg : 0 <= g.

  Lemma token_preplaced_val :
    0 <= off <= 16381 /\ g <= 31 /\
    t = off * 2 ^ 18 + g * 2048 + preplaced_bytes g
        + (if d then 0x10000 else 0) + (if s then 0x20000 else 0).
  Proof.
    unfold token_preplaced in Htok. change g_hole with 31 in Htok.
    change max_preplaced_offset with 16381 in Htok.
    destruct (u64 off >? 16381) eqn:E1; [discriminate|]. destruct (g >? 31) eqn:E2; [discriminate|].
    injection Htok as <-. unfold u64 in *.
    assert (Hu : off mod 2 ^ 64 = off) by lia. rewrite Hu in *.
    assert (0 <= off) by lia.
    split; [lia|]. split; [lia|].
    pose proof (preplaced_bytes_bound g) as Hb.
    unfold tag_from_offset, u32, genus_shift, offset_shift.
    rewrite !Z.shiftl_mul_pow2 by lia.
    change discernible_null_flag with 0x10000. change saturation_flag with 0x20000.
    change (2 ^ 11) with 2048. change (2 ^ 18) with 262144. change (2 ^ 32) with 4294967296.
    rewrite Z.mod_small by (destruct d, s; cbn [flag]; lia).
    destruct d, s; cbn [flag]; lia.
  Qed.

  Lemma token_preplaced_fields :
    is_preplaced t = true /\ is_loose t = false /\ t <> 0 /\
    tag2genus t = g /\ tag2offset t = off /\ tag2indysize t = preplaced_bytes g /\
    is_loose_collection t = false /\ is_discernible_null t = d /\ is_saturated t = s.
  Proof.
    destruct token_preplaced_val as (H1 & H2 & Ht).
    pose proof (preplaced_bytes_bound g) as Hb.
    assert (Hnz : g = 0 -> preplaced_bytes g = 4) by (intros ->; reflexivity).
    unfold is_loose, is_preplaced, is_loose_collection.
    rewrite tag2genus_arith, tag2offset_arith, tag2indysize_arith,
      is_discernible_null_arith, is_saturated_arith.
    rewrite loose_threshold_val, collection_threshold_val.
    rewrite Ht. clear Ht Htok Hoff.
    set (b := preplaced_bytes g) in *. clearbody b.
    repeat split; destruct d, s; lia.
  Qed.

  Lemma token_preplaced_normal :
    normalize_tag t = off * 2 ^ 18 + 3 * 2 ^ 16 + g * 2048 + preplaced_bytes g.
  Proof.
    destruct token_preplaced_val as (H1 & H2 & Ht).
    pose proof (preplaced_bytes_bound g) as Hb.
    rewrite normalize_preplaced.
    - rewrite Ht. clear Ht Htok Hoff. set (b := preplaced_bytes g) in *. clearbody b.
      destruct d, s; lia.
    - rewrite Ht, loose_threshold_val. clear Ht Htok Hoff.
      set (b := preplaced_bytes g) in *. clearbody b. destruct d, s; lia.
  Qed.
End Preplaced.

Lemma loose_same g1 id1 c1 d1 s1 g2 id2 c2 d2 s2 t1 t2 :
  0 <= g1 -> 0 <= id1 -> 0 <= g2 -> 0 <= id2 ->
  token_loose g1 id1 c1 d1 s1 = Some t1 -> token_loose g2 id2 c2 d2 s2 = Some t2 ->
  (tag_same t1 t2 = true <-> g1 = g2 /\ id1 = id2) /\
  (tag_less t1 t2 = true <-> g1 < g2 \/ (g1 = g2 /\ id1 < id2)).
Proof.
  intros Hg1 Hi1 Hg2 Hi2 H1 H2. unfold tag_same, tag_less.
  rewrite (token_loose_normal _ _ _ _ _ _ H1), (token_loose_normal _ _ _ _ _ _ H2) by lia.
  apply token_loose_val in H1 as (A1 & B1 & _); [|lia..].
  apply token_loose_val in H2 as (A2 & B2 & _); [|lia..].
  split; lia.
Qed.

Lemma preplaced_same o1 g1 d1 s1 o2 g2 d2 s2 t1 t2 :
  - 2 ^ 63 <= o1 < 2 ^ 63 -> - 2 ^ 63 <= o2 < 2 ^ 63 -> 0 <= g1 -> 0 <= g2 ->
  token_preplaced o1 g1 d1 s1 = Some t1 -> token_preplaced o2 g2 d2 s2 = Some t2 ->
  (tag_same t1 t2 = true <-> g1 = g2 /\ o1 = o2) /\
  (o1 < o2 -> tag_less t1 t2 = true).
Proof.
  intros Ho1 Ho2 Hg1 Hg2 H1 H2. unfold tag_same, tag_less.
  rewrite (token_preplaced_normal _ _ _ _ _ H1), (token_preplaced_normal _ _ _ _ _ H2) by lia.
  apply token_preplaced_val in H1 as (A1 & B1 & _); [|lia..].
  apply token_preplaced_val in H2 as (A2 & B2 & _); [|lia..].
  pose proof (preplaced_bytes_bound g1). pose proof (preplaced_bytes_bound g2).
  split; [split|].
  - intros E. assert (g1 = g2 /\ o1 = o2) by lia. tauto.
  - intros [-> ->]. lia.
  - intros L. lia.
Qed.

Lemma preplaced_loose_differ o1 g1 d1 s1 g2 id2 c2 d2 s2 t1 t2 :
  - 2 ^ 63 <= o1 < 2 ^ 63 -> 0 <= g1 -> 0 <= g2 -> 0 <= id2 ->
  token_preplaced o1 g1 d1 s1 = Some t1 -> token_loose g2 id2 c2 d2 s2 = Some t2 ->
  tag_same t1 t2 = false /\ tag_less t1 t2 = true /\ t1 <> t2.
Proof.
  intros Ho1 Hg1 Hg2 Hi2 H1 H2. unfold tag_same, tag_less.
  rewrite (token_preplaced_normal _ _ _ _ _ H1), (token_loose_normal _ _ _ _ _ _ H2) by lia.
  apply token_preplaced_val in H1 as (A1 & B1 & V1); [|lia..].
  apply token_loose_val in H2 as (A2 & B2 & V2); [|lia..].
  pose proof (preplaced_bytes_bound g1).
  split; [lia|]. split; [lia|].
  rewrite V1, V2. destruct d1, s1, c2, d2, s2; lia.
Qed.

(** The 16-bit descriptor stored in the index identifies a loose field. *)
Lemma loose_descriptor g id c d s t :
  0 <= g -> 0 <= id -> token_loose g id c d s = Some t ->
  tag2genus_and_id t = g * 2048 + id /\
  descriptor2genus (tag2genus_and_id t) = g /\ descriptor2id (tag2genus_and_id t) = id.
Proof.
  intros Hg Hi H.
  destruct (token_loose_val _ _ _ _ _ _ H Hg Hi) as (A & B & V).
  assert (E : tag2genus_and_id t = g * 2048 + id).
  { unfold tag2genus_and_id, u16. rewrite V. destruct c, d, s; lia. }
  rewrite E, descriptor2genus_arith, descriptor2id_arith. split; [reflexivity|]. split; lia.
Qed.

(** enforce_*: changes exactly one attribute. *)
Lemma enforce_null_field_same g id c d s t v :
  0 <= g -> 0 <= id -> token_loose g id c d s = Some t ->
  token_loose g id c v s = Some (enforce_discernible_null t v).
Proof.
  intros Hg Hi H. destruct (token_loose_val _ _ _ _ _ _ H Hg Hi) as (A & B & V).
  unfold token_loose in *. change g_hole with 31 in *. unfold max_ident in *.
  destruct (g >=? 31) eqn:E1; [lia|]. destruct (id >? 2047) eqn:E2; [lia|]. f_equal.
  unfold make_tag, u32. rewrite loose_threshold_val.
  change discernible_null_flag with 0x10000. change saturation_flag with 0x20000.
  change loose_collection_flag with 0x40000. unfold genus_shift.
  rewrite Z.shiftl_mul_pow2 by lia. change (2 ^ 11) with 2048.
  rewrite Z.mod_small by (destruct c, v, s; cbn [flag]; lia).
  unfold enforce_discernible_null.
  set (hi := 0x1FFF * 4 + (if c then 2 else 0) + (if s then 1 else 0)).
  set (lo := g * 2048 + id).
  assert (Et : t = (hi * 2 + (if d then 1 else 0)) * 2 ^ 16 + lo).
  { rewrite V. subst hi lo. destruct c, d, s; lia. }
  assert (Hlo : 0 <= lo < 2 ^ 16) by (subst lo; lia).
  assert (Hhi : 0 <= hi < 2 ^ 15) by (subst hi; destruct c, s; lia).
  rewrite Et. destruct v.
  - change discernible_null_flag with (1 * 2 ^ 16 + 0).
    rewrite lor_split by lia. rewrite Z.lor_0_r.
    assert (E : Z.lor (hi * 2 + (if d then 1 else 0)) 1 = hi * 2 + 1).
    { change 2 with (2 ^ 1). change 1 with (0 * 2 ^ 1 + 1) at 3.
      rewrite lor_split by (destruct d; lia). rewrite Z.lor_0_r. destruct d; reflexivity. }
    rewrite E. subst hi lo. destruct c, s; cbn [flag]; lia.
  - change (2 ^ 32 - 1 - discernible_null_flag) with (0xFFFE * 2 ^ 16 + 0xFFFF).
    rewrite land_split by lia.
    replace (Z.land lo 0xFFFF) with lo
      by (symmetry; change 0xFFFF with (2 ^ 16 - 1); rewrite land_mask by lia; apply Z.mod_small; lia).
    assert (E : Z.land (hi * 2 + (if d then 1 else 0)) 0xFFFE = hi * 2).
    { change 2 with (2 ^ 1). change 0xFFFE with (0x7FFF * 2 ^ 1 + 0).
      rewrite land_split by (destruct d; lia). rewrite Z.land_0_r, Z.add_0_r. f_equal.
      change 0x7FFF with (2 ^ 15 - 1). rewrite land_mask by lia. apply Z.mod_small; lia. }
    rewrite E. subst hi lo. destruct c, s; cbn [flag]; lia.
Qed.

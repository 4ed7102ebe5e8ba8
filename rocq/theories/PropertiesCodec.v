(** * Properties of tokens and of the variable-length payload formats
    (C13, C14, C15, C18, C38). *)
From Verif Require Import Base Tag TagProofs Codec CodecProofs.

(** ** C14: a string accepted by the size estimator, stored into ANY memory chunk of the
    estimated size, is read back unchanged, uses exactly that chunk, and is followed by a zero
    byte inside the chunk whenever the chunk has room for one. *)
Theorem C14_string_roundtrip : forall (v old : list Z) (units : Z),
  string_estimate (zlen v) = Some units ->
  zlen old = 4 * units ->
  let m := string_store old v in
  string_read m = Str v /\ string_length m = zlen v /\
  string_brutto_units m = units /\ zlen m = 4 * units /\
  let text_end := (if zlen v <? 254 then 1 else 3) + zlen v in
  text_end <= 4 * units /\ (text_end < 4 * units -> byte_at m text_end = 0).
Proof.
  intros v old units He Ho m.
  pose proof (zlen_nonneg v) as Hn.
  apply (string_estimate_spec (zlen v) units Hn) in He as [Hmax ->].
  assert (Hs : m = string_enc v) by (apply string_store_enc; [exact Hmax|exact Ho]).
  destruct (string_enc_brutto v Hmax) as (B & L & N).
  split; [apply string_roundtrip; assumption|].
  rewrite Hs. split; [exact N|]. split; [exact B|]. split; [exact L|].
  assert (HU : string_units (zlen v) = (zlen v + (if zlen v <? 254 then 1 else 3) + 3) / 4)
    by (unfold string_units, tiny_threshold; rewrite bytes2units_div; reflexivity).
  cbv zeta. rewrite HU. split; [destruct (zlen v <? 254); lia|].
  intros Hlt. rewrite <- Hs. apply string_nul; [exact Hmax|exact Ho|].
  destruct (zlen v <? 254); lia.
Qed.
Example C14_case : let v := repeat 65 300 in
  string_estimate (zlen v) = Some 76 /\
  string_read (string_store (repeat 7 304) v) = Str v /\
  string_read (string_store [9; 9; 9; 9] [104; 105]) = Str [104; 105] /\
  string_store [9; 9; 9; 9] [104; 105] = [2; 104; 105; 0].
Proof. vm_compute. repeat split. Qed.

(** ** C13: the English property is false of the code: every binary value whose length is not
    a multiple of four is read back four bytes too long, past the end of its chunk. *)
Theorem C13_varbin_roundtrip_refuted : forall (v old : list Z) (units : Z),
  varbin_estimate (zlen v) = Some units -> zlen old = 4 * units -> zlen v mod 4 <> 0 ->
  varbin_length (varbin_store old v) = zlen v + 4 /\
  4 + varbin_length (varbin_store old v) > zlen (varbin_store old v) /\
  forall after, 4 <= zlen after -> varbin_read (varbin_store old v) after <> v.
Proof.
  intros v old units He Ho Hr. pose proof (zlen_nonneg v) as Hn.
  apply (varbin_estimate_spec (zlen v) units Hn) in He as [Hmax ->].
  rewrite <- bytes2units_div in Ho.
  assert (Hb : bytes2units (zlen v) + 1 <= 65535) by (rewrite bytes2units_div; lia).
  destruct (varbin_unaligned_overread old v Hb Ho Hr) as [L O].
  split; [exact L|]. split; [exact O|]. intros after Ha E.
  assert (zlen (varbin_read (varbin_store old v) after) = zlen v + 4).
  { unfold varbin_read. rewrite L. unfold peek, zlen.
    rewrite firstn_length, skipn_length, app_length.
    rewrite varbin_store_enc by assumption.
    destruct (varbin_enc_facts v Hb) as (_ & HZ & _). unfold zlen in *.
    rewrite bytes2units_div in HZ. lia. }
  rewrite E in H. lia.
Qed.
Example C13_case :
  varbin_estimate (zlen [1; 2; 3]) = Some 2 /\
  varbin_read (varbin_store (repeat 0 8) [1; 2; 3]) [170; 187; 204; 221]
  = [1; 2; 3; 0; 170; 187; 204].
Proof. vm_compute. split; reflexivity. Qed.

(** The part of C13 that holds: lengths that are multiples of four. *)
Theorem C13_varbin_roundtrip_partial : forall (v old after : list Z) (units : Z),
  varbin_estimate (zlen v) = Some units -> zlen old = 4 * units -> zlen v mod 4 = 0 ->
  varbin_read (varbin_store old v) after = v /\
  varbin_length (varbin_store old v) = zlen v /\
  varbin_brutto_units (varbin_store old v) = units /\
  zlen (varbin_store old v) = 4 * units.
Proof.
  intros v old after units He Ho Hr. pose proof (zlen_nonneg v) as Hn.
  apply (varbin_estimate_spec (zlen v) units Hn) in He as [Hmax ->].
  rewrite <- bytes2units_div in Ho.
  assert (Hb : bytes2units (zlen v) + 1 <= 65535) by (rewrite bytes2units_div; lia).
  split; [apply varbin_roundtrip_aligned; assumption|].
  rewrite varbin_store_enc by assumption.
  destruct (varbin_enc_facts v Hb) as (B & Z & L).
  rewrite L, B, Z, bytes2units_div. replace (zlen v mod 4 =? 0) with true by lia. auto.
Qed.
Example C13_partial_case :
  varbin_estimate (zlen [1; 2; 3; 4]) = Some 2 /\
  varbin_read (varbin_store (repeat 9 8) [1; 2; 3; 4]) [] = [1; 2; 3; 4].
Proof. vm_compute. split; reflexivity. Qed.

(** ** C15: the estimators accept exactly the lengths their formats can express, and a value
    that is accepted is stored with its full length. *)
Theorem C15_overlong_refused : forall n, 0 <= n ->
  (string_estimate n = None <-> n > 131325) /\
  (varbin_estimate n = None <-> n > 262136) /\
  (property_estimate n = None <-> n > 255).
Proof.
  intros n Hn.
  pose proof (string_estimate_spec n (string_units n) Hn) as A.
  pose proof (varbin_estimate_spec n ((n + 3) / 4 + 1) Hn) as B.
  pose proof (property_estimate_spec n ((n + 2 + 3) / 4) Hn) as C.
  repeat split; intros H.
  - destruct (Z.le_gt_cases n 131325) as [L|G]; [|lia]. rewrite (proj2 A) in H by auto. discriminate.
  - destruct (string_estimate n) as [u|] eqn:E; [|reflexivity]. apply string_estimate_spec in E; lia.
  - destruct (Z.le_gt_cases n 262136) as [L|G]; [|lia]. rewrite (proj2 B) in H by auto. discriminate.
  - destruct (varbin_estimate n) as [u|] eqn:E; [|reflexivity]. apply varbin_estimate_spec in E; lia.
  - destruct (Z.le_gt_cases n 255) as [L|G]; [|lia]. rewrite (proj2 C) in H by auto. discriminate.
  - destruct (property_estimate n) as [u|] eqn:E; [|reflexivity]. apply property_estimate_spec in E; lia.
Qed.
Theorem C15_property_never_truncated : forall (v old : list Z) (id units : Z),
  property_estimate (zlen v) = Some units -> zlen old = 4 * units -> 0 <= id < 256 ->
  property_read (property_store old v id) = (v, id) /\
  property_brutto_units (property_store old v id) = units /\
  zlen (property_store old v id) = 4 * units.
Proof.
  intros v old id units He Ho Hid. pose proof (zlen_nonneg v) as Hn.
  apply (property_estimate_spec (zlen v) units Hn) in He as [Hmax ->].
  rewrite <- bytes2units_div in Ho. rewrite <- bytes2units_div.
  destruct (property_roundtrip old v id Hmax Hid Ho) as (A & B & C).
  rewrite C, Ho. auto.
Qed.
Example C15_case :
  property_estimate 3 = Some 2 /\ property_estimate 256 = None /\
  property_read (property_store (repeat 5 8) [1; 2; 3] 77) = ([1; 2; 3], 77).
Proof. vm_compute. repeat split. Qed.

(** ** C38: a tuple image stored as a nested value occupies exactly its own length and is
    byte-for-byte identical. *)
Theorem C38_nested_verbatim : forall (image old : list Z),
  1 <= u16_at image 0 ->                       (* brutto_units of the image header *)
  zlen image = 4 * u16_at image 0 ->           (* it is a whole image *)
  zlen old = 4 * nested_estimate (Some image) ->
  nested_store old (Some image) = image /\
  nested_brutto_units (nested_store old (Some image)) = nested_estimate (Some image).
Proof.
  intros image old H1 H2 H3. cbn [nested_estimate] in *.
  destruct (nested_roundtrip old image H1 H2) as [A B]; [lia|]. rewrite A. auto.
Qed.
Example C38_case : let image := [2; 0; 8; 0; 5; 0; 0; 32] in
  u16_at image 0 = 2 /\ nested_store (repeat 255 8) (Some image) = image.
Proof. vm_compute. split; reflexivity. Qed.

(** ** C18: everything put into a token comes out of it, and two tokens denote the same field
    exactly when type and number (or offset) agree. *)
Theorem C18_loose_token_recovers : forall type id collection discernible saturated tok,
  0 <= type -> 0 <= id ->
  token_loose type id collection discernible saturated = Some tok ->
  type < 31 /\ id <= 2047 /\
  is_loose tok = true /\ is_preplaced tok = false /\
  tag2genus tok = type /\ tag2id tok = id /\
  is_loose_collection tok = collection /\
  is_discernible_null tok = discernible /\ is_saturated tok = saturated.
Proof.
  intros. pose proof (token_loose_val _ _ _ _ _ _ H1 H H0) as (A & B & _).
  pose proof (token_loose_fields _ _ _ _ _ _ H1 H H0). tauto.
Qed.
Theorem C18_preplaced_token_recovers : forall off type discernible saturated tok,
  - 2 ^ 63 <= off < 2 ^ 63 -> 0 <= type ->
  token_preplaced off type discernible saturated = Some tok ->
  0 <= off <= 16381 /\ type <= 31 /\
  is_preplaced tok = true /\ is_loose tok = false /\
  tag2genus tok = type /\ tag2offset tok = off /\ tag2indysize tok = preplaced_bytes type /\
  is_discernible_null tok = discernible /\ is_saturated tok = saturated.
Proof.
  intros. pose proof (token_preplaced_val _ _ _ _ _ H1 H H0) as (A & B & _).
  pose proof (token_preplaced_fields _ _ _ _ _ H1 H H0). tauto.
Qed.
Theorem C18_loose_tokens_same : forall g1 id1 c1 d1 s1 g2 id2 c2 d2 s2 t1 t2,
  0 <= g1 -> 0 <= id1 -> 0 <= g2 -> 0 <= id2 ->
  token_loose g1 id1 c1 d1 s1 = Some t1 -> token_loose g2 id2 c2 d2 s2 = Some t2 ->
  (tag_same t1 t2 = true <-> g1 = g2 /\ id1 = id2) /\
  (tag_less t1 t2 = true <-> g1 < g2 \/ (g1 = g2 /\ id1 < id2)).
Proof. exact loose_same. Qed.
Theorem C18_preplaced_tokens_same : forall o1 g1 d1 s1 o2 g2 d2 s2 t1 t2,
  - 2 ^ 63 <= o1 < 2 ^ 63 -> - 2 ^ 63 <= o2 < 2 ^ 63 -> 0 <= g1 -> 0 <= g2 ->
  token_preplaced o1 g1 d1 s1 = Some t1 -> token_preplaced o2 g2 d2 s2 = Some t2 ->
  (tag_same t1 t2 = true <-> g1 = g2 /\ o1 = o2) /\
  (o1 < o2 -> tag_less t1 t2 = true).
Proof. exact preplaced_same. Qed.
Theorem C18_preplaced_and_loose_differ : forall o1 g1 d1 s1 g2 id2 c2 d2 s2 t1 t2,
  - 2 ^ 63 <= o1 < 2 ^ 63 -> 0 <= g1 -> 0 <= g2 -> 0 <= id2 ->
  token_preplaced o1 g1 d1 s1 = Some t1 -> token_loose g2 id2 c2 d2 s2 = Some t2 ->
  tag_same t1 t2 = false /\ tag_less t1 t2 = true /\ t1 <> t2.
Proof. exact preplaced_loose_differ. Qed.
(** the 16-bit descriptor kept in the index identifies type and number *)
Theorem C18_index_descriptor : forall g id c d s t,
  0 <= g -> 0 <= id -> token_loose g id c d s = Some t ->
  tag2genus_and_id t = g * 2048 + id /\
  descriptor2genus (tag2genus_and_id t) = g /\ descriptor2id (tag2genus_and_id t) = id.
Proof. exact loose_descriptor. Qed.
Example C18_case :
  token_loose 12 1234 true false true <> None /\ token_preplaced 100 14 true false <> None.
Proof. vm_compute. split; discriminate. Qed.

(** ** C14, C38. Pool tags and null nested tuples *)
(** A first unit is taken for the tag of a pool exactly when its first byte is zero and another is
    not; by [C14_string_roundtrip] no stored string is. *)
Theorem C14_pool_tag : forall b0 b1 b2 b3 rest, 0 <= b0 < 256 -> 0 <= b1 < 256 -> 0 <= b2 < 256 -> 0 <= b3 < 256 ->
  string_is_pool_tag (b0 :: b1 :: b2 :: b3 :: rest) = true <-> b0 = 0 /\ (b1 <> 0 \/ b2 <> 0 \/ b3 <> 0).
Proof.
  intros b0 b1 b2 b3 rest H0 H1 H2 H3. unfold string_is_pool_tag, u32_at, u16_at, byte_at.
  change (Z.to_nat 0) with 0%nat. change (Z.to_nat (0 + 1)) with 1%nat. change (Z.to_nat (0 + 2)) with 2%nat. change (Z.to_nat (0 + 2 + 1)) with 3%nat.
  cbn [nth]. lia.
Qed.
Example C14_pool_case : string_is_pool_tag [0; 0; 0; 1] = true /\ string_is_pool_tag (string_store [9; 9; 9; 9] []) = false.
Proof. split; reflexivity. Qed.
(** A null pointer stands for no units and clears the header. *)
Theorem C38_null_nested : forall m0 m1 m2 m3 rest, nested_estimate None = 0 /\
  nested_store (m0 :: m1 :: m2 :: m3 :: rest) None = 0 :: 0 :: 0 :: 0 :: rest.
Proof. intros. split; reflexivity. Qed.

Print Assumptions C14_string_roundtrip.
Print Assumptions C14_pool_tag.
Print Assumptions C38_null_nested.
Print Assumptions C13_varbin_roundtrip_refuted.
Print Assumptions C13_varbin_roundtrip_partial.
Print Assumptions C15_overlong_refused.
Print Assumptions C15_property_never_truncated.
Print Assumptions C38_nested_verbatim.
Print Assumptions C18_loose_token_recovers.
Print Assumptions C18_preplaced_token_recovers.
Print Assumptions C18_loose_tokens_same.
Print Assumptions C18_preplaced_tokens_same.
Print Assumptions C18_preplaced_and_loose_differ.
Print Assumptions C18_index_descriptor.

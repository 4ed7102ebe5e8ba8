(** * Proofs about the payload codecs. *)
From Verif Require Import Base Codec.
From Coq Require Import ZifyBool ZifyNat.
Ltac Zify.zify_post_hook ::= Z.div_mod_to_equations.

Lemma zlen_nonneg {A} (l : list A) : 0 <= zlen l.
Proof. unfold zlen; lia. Qed.

Lemma blit_length m off bs :
  0 <= off -> off + zlen bs <= zlen m -> length (blit m off bs) = length m.
Proof.
  unfold zlen, blit. intros H1 H2.
  rewrite !app_length, firstn_length, skipn_length. lia.
Qed.

Lemma nth_blit m off bs i :
  0 <= off -> off + zlen bs <= zlen m ->
  nth i (blit m off bs) 0 =
  if (off <=? Z.of_nat i) && (Z.of_nat i <? off + zlen bs)
  then nth (i - Z.to_nat off) bs 0 else nth i m 0.
Proof.
  unfold zlen, blit. intros H1 H2.
  assert (Hf : length (firstn (Z.to_nat off) m) = Z.to_nat off) by (rewrite firstn_length; lia).
  destruct (Z.leb_spec off (Z.of_nat i)) as [L|L]; cbn [andb].
  - rewrite app_nth2 by lia. rewrite Hf.
    destruct (Z.ltb_spec (Z.of_nat i) (off + Z.of_nat (length bs))) as [L2|L2].
    + rewrite app_nth1 by lia. reflexivity.
    + rewrite app_nth2 by lia.
      rewrite <- (firstn_skipn (Z.to_nat off + length bs) m) at 2.
      rewrite app_nth2; rewrite firstn_length; [f_equal|]; lia.
  - rewrite app_nth1 by lia.
    rewrite <- (firstn_skipn (Z.to_nat off) m) at 2.
    rewrite app_nth1 by lia. reflexivity.
Qed.

(** Canonical encodings. *)
Definition string_enc (v : list Z) : list Z :=
  let n := zlen v in
  (if n <? 254 then [n]
   else let p := 254 + n mod 2 in let s := (n - p) / 2 in [p; s mod 256; s / 256])
  ++ v ++ repeat 0 (Z.to_nat (4 * string_units n - n - (if n <? 254 then 1 else 3))).

Definition varbin_enc (v : list Z) : list Z :=
  let n := zlen v in
  let b := bytes2units n + 1 in
  [b mod 256; b / 256; n mod 4; 0] ++ v ++ repeat 0 (Z.to_nat (4 * b - n - 4)).

Definition property_enc (v : list Z) (id : Z) : list Z :=
  let n := zlen v in
  [n; id] ++ v ++ repeat 0 (Z.to_nat (4 * bytes2units (n + 2) - n - 2)).

Lemma land1 n : Z.land n 1 = n mod 2.
Proof. apply (land_mask n 1). lia. Qed.
Lemma land3 n : Z.land n 3 = n mod 4.
Proof. apply (land_mask n 2). lia. Qed.

Lemma list_ext (a b : list Z) :
  length a = length b -> (forall i, (i < length a)%nat -> nth i a 0 = nth i b 0) -> a = b.
Proof. intros HL H. apply (nth_ext a b 0 0 HL). exact H. Qed.

Lemma nth_repeat0 k i : nth i (repeat 0 k) 0 = 0.
Proof. revert i; induction k as [|k IH]; intros [|i]; cbn; auto. Qed.

Lemma blit_spec m off bs :
  0 <= off -> off + zlen bs <= zlen m ->
  zlen (blit m off bs) = zlen m /\
  forall i, nth i (blit m off bs) 0 =
    if (off <=? Z.of_nat i) && (Z.of_nat i <? off + zlen bs)
    then nth (i - Z.to_nat off) bs 0 else nth i m 0.
Proof.
  intros H1 H2. split.
  - unfold zlen at 1. rewrite blit_length by assumption. reflexivity.
  - intros i. apply nth_blit; assumption.
Qed.

Lemma zlen_cons {A} (x : A) l : zlen (x :: l) = 1 + zlen l.
Proof. unfold zlen. cbn [length]. lia. Qed.
Lemma zlen_nil {A} : zlen (@nil A) = 0.
Proof. reflexivity. Qed.
Lemma zlen_app {A} (a b : list A) : zlen (a ++ b) = zlen a + zlen b.
Proof. unfold zlen. rewrite app_length. lia. Qed.

Ltac zl := repeat rewrite zlen_cons in *; change (zlen (@nil Z)) with 0 in *.

(** Replace the innermost [blit m ...] by a fresh memory with its specification. *)
Ltac abs_blit m m1 N :=
  match goal with
  | |- context [blit m ?o ?b] =>
      let L := fresh "L" in
      destruct (blit_spec m o b) as [L N]; [zl; lia | zl; lia | ];
      set (m1 := blit m o b) in *; clearbody m1; zl
  end.

Lemma zlen_ext (a b : list Z) :
  zlen a = zlen b -> (forall i, (i < length a)%nat -> nth i a 0 = nth i b 0) -> a = b.
Proof. intros H. apply list_ext. unfold zlen in H. lia. Qed.

Lemma nth_zeros4 j : nth j [0; 0; 0; 0] 0 = 0.
Proof. destruct j as [|[|[|[|[|j]]]]]; reflexivity. Qed.

Lemma nth_cons_z (x : Z) l (i : nat) :
  nth i (x :: l) 0 = if (i =? 0)%nat then x else nth (i - 1) l 0.
Proof. destruct i as [|i]; cbn [nth Nat.eqb]; [reflexivity|]. f_equal. lia. Qed.

Lemma nth_app_z (a b : list Z) (i : nat) :
  nth i (a ++ b) 0 = if Z.of_nat i <? zlen a then nth i a 0 else nth (i - length a) b 0.
Proof.
  unfold zlen. destruct (Z.ltb_spec (Z.of_nat i) (Z.of_nat (length a))).
  - apply app_nth1; lia.
  - apply app_nth2; lia.
Qed.

Lemma zlen_repeat k : zlen (repeat 0 (Z.to_nat k)) = Z.max 0 k.
Proof. unfold zlen. rewrite repeat_length. lia. Qed.

Lemma nth_past (m : list Z) i : zlen m <= Z.of_nat i -> nth i m 0 = 0.
Proof. unfold zlen. intros H. apply nth_overflow. lia. Qed.

(** Generic shape: header, contents, zero padding of the last unit. *)
Lemma enc_by_nth (r h v : list Z) k :
  zlen r = zlen h + zlen v + k -> 0 <= k ->
  (forall i, 0 <= i < zlen h -> nth (Z.to_nat i) r 0 = nth (Z.to_nat i) h 0) ->
  (forall i, 0 <= i < zlen v -> nth (Z.to_nat (zlen h + i)) r 0 = nth (Z.to_nat i) v 0) ->
  (forall i, zlen h + zlen v <= i < zlen r -> nth (Z.to_nat i) r 0 = 0) ->
  r = h ++ v ++ repeat 0 (Z.to_nat k).
Proof.
  intros HL Hk HH HV HZ. apply zlen_ext.
  - rewrite !zlen_app, zlen_repeat. lia.
  - intros i Hi. assert (Hi' : Z.of_nat i < zlen r) by (unfold zlen; lia).
    rewrite !nth_app_z, nth_repeat0.
    destruct (Z.ltb_spec (Z.of_nat i) (zlen h)) as [A|A].
    + specialize (HH (Z.of_nat i)). rewrite Nat2Z.id in HH. apply HH. lia.
    + destruct (Z.ltb_spec (Z.of_nat (i - length h)) (zlen v)) as [B|B].
      * specialize (HV (Z.of_nat (i - length h))). rewrite Nat2Z.id in HV.
        rewrite <- HV by lia. f_equal. unfold zlen in *. lia.
      * specialize (HZ (Z.of_nat i)). rewrite Nat2Z.id in HZ.
        apply HZ. unfold zlen in *. lia.
Qed.

Ltac bcase :=
  match goal with
  | |- context [if ?b then _ else _] => destruct b eqn:?
  end.

(** Evaluate [nth] of the chain of writes; every test is decided by [lia] or split. *)
Ltac nthchain :=
  repeat match goal with
  | N : forall i, nth i ?m 0 = _ |- context [nth ?k ?m 0] => rewrite (N k)
  end;
  repeat (bcase; try (exfalso; lia)); try reflexivity.

Lemma string_store_enc m v :
  zlen v <= string_max_length ->
  zlen m = 4 * string_units (zlen v) ->
  string_store m v = string_enc v.
Proof.
  unfold string_max_length. intros Hmax Hm. pose proof (zlen_nonneg v) as Hn.
  unfold string_store, string_enc.
  assert (HU : string_units (zlen v) = (zlen v + (if zlen v <? 254 then 1 else 3) + 3) / 4)
    by (unfold string_units, tiny_threshold; rewrite bytes2units_div; reflexivity).
  rewrite HU in *. clear HU.
  set (n := zlen v) in *. assert (En : zlen v = n) by reflexivity. clearbody n.
  unfold tiny_threshold.
  destruct (Z.geb_spec n 254) as [L|L].
  - replace (n <? 254) with false in * by lia.
    rewrite land1. unfold u8, u16_bytes, u16. rewrite Z.shiftr_div_pow2 by lia.
    change (2 ^ 1) with 2. change (2 ^ 8) with 256. change (2 ^ 16) with 65536.
    set (p := 254 + n mod 2) in *.
    assert (Hp : p mod 256 = p) by (subst p; lia). rewrite Hp.
    set (s := (n - p) / 2).
    assert (Hs : 0 <= s < 65536) by (subst s p; lia).
    rewrite (Z.mod_small (s mod 65536)) by lia. rewrite (Z.mod_small s) by lia.
    clearbody s. clear Hp. clearbody p.
    abs_blit m m1 N1. abs_blit m1 m2 N2. abs_blit m2 m3 N3. abs_blit m3 m4 N4. abs_blit m4 m5 N5.
    apply (enc_by_nth m5 [p; s mod 256; s / 256] v).
    + zl. lia.
    + lia.
    + zl. intros i Hi. assert (C : i = 0 \/ i = 1 \/ i = 2) by lia.
      destruct C as [-> | [-> | ->]]; nthchain.
    + zl. intros i Hi.  nthchain. f_equal. lia.
    + zl.  intros i Hi. nthchain; try apply nth_zeros4.
  - replace (n <? 254) with true in * by lia.
    unfold u8. change (2 ^ 8) with 256.
    rewrite (Z.mod_small n) by lia.
    abs_blit m m1 N1. abs_blit m1 m2 N2. abs_blit m2 m3 N3.
    apply (enc_by_nth m3 [n] v).
    + zl. lia.
    + lia.
    + zl. intros i Hi. assert (i = 0) as -> by lia. nthchain.
    + zl. intros i Hi.  nthchain. f_equal. lia.
    + zl.  intros i Hi. nthchain; try apply nth_zeros4.
Qed.

Lemma varbin_store_enc m v :
  bytes2units (zlen v) + 1 <= 65535 ->
  zlen m = 4 * (bytes2units (zlen v) + 1) ->
  varbin_store m v = varbin_enc v.
Proof.
  intros Hmax Hm. pose proof (zlen_nonneg v) as Hn.
  unfold varbin_store, varbin_enc. rewrite bytes2units_div in *.
  set (n := zlen v) in *. assert (En : zlen v = n) by reflexivity. clearbody n. rewrite land3. unfold u16_bytes, u16. change (2 ^ 16) with 65536.
  set (b := (n + 3) / 4 + 1) in *.
  rewrite (Z.mod_small b 65536) by lia.
  rewrite (Z.mod_small (n mod 4) 65536) by lia.
  rewrite (Z.mod_small (n mod 4) 256) by lia.
  rewrite (Z.div_small (n mod 4) 256) by lia.
  assert (Hb : n <= 4 * b - 4 < n + 4) by lia. 
  set (r := n mod 4). clearbody r b.
  abs_blit m m1 N1. abs_blit m1 m2 N2. abs_blit m2 m3 N3. abs_blit m3 m4 N4.
  apply (enc_by_nth m4 [b mod 256; b / 256; r; 0] v).
  + zl. lia.
  + lia.
  + zl. intros i Hi. assert (C : i = 0 \/ i = 1 \/ i = 2 \/ i = 3) by lia.
    destruct C as [-> | [-> | [-> | ->]]]; nthchain.
  + zl. intros i Hi.  nthchain. f_equal. lia.
  + zl.  intros i Hi. nthchain; try apply nth_zeros4.
Qed.

Lemma property_store_enc m v id :
  zlen v <= 255 -> 0 <= id < 256 ->
  zlen m = 4 * bytes2units (zlen v + 2) ->
  property_store m v id = property_enc v id.
Proof.
  intros Hmax Hid Hm. pose proof (zlen_nonneg v) as Hn.
  unfold property_store, property_enc. rewrite bytes2units_div in *.
  set (n := zlen v) in *. assert (En : zlen v = n) by reflexivity. clearbody n. unfold u8. change (2 ^ 8) with 256.
  rewrite (Z.mod_small n), (Z.mod_small id) by lia.
  abs_blit m m1 N1. abs_blit m1 m2 N2. abs_blit m2 m3 N3. abs_blit m3 m4 N4.
  apply (enc_by_nth m4 [n; id] v).
  + zl. lia.
  + lia.
  + zl. intros i Hi. assert (C : i = 0 \/ i = 1) by lia.
    destruct C as [-> | ->]; nthchain.
  + zl. intros i Hi.  nthchain. f_equal. lia.
  + zl.  intros i Hi. nthchain; try apply nth_zeros4.
Qed.

(** ** Reading back *)
Lemma peek_mid (h v t : list Z) : peek (h ++ v ++ t) (zlen h) (zlen v) = v.
Proof.
  unfold peek, zlen. rewrite !Nat2Z.id.
  rewrite skipn_app, skipn_all, Nat.sub_diag. cbn [app skipn].
  rewrite firstn_app, Nat.sub_diag, firstn_all. cbn [firstn]. apply app_nil_r.
Qed.

Definition all_bytes (v : list Z) : Prop := Forall isbyte v.

Lemma string_enc_read v :
  zlen v <= string_max_length -> string_read (string_enc v) = Str v.
Proof.
  unfold string_max_length. intros Hmax. pose proof (zlen_nonneg v) as Hn.
  unfold string_read, string_is_pool_tag, string_is_tiny, string_length, string_is_tiny,
    string_enc, byte_at, u32_at, u16_at, byte_at, tiny_threshold.
  destruct (Z.ltb_spec (zlen v) 254) as [L|L].
  - set (k := Z.to_nat (4 * _ - _ - _)).
    change (Z.to_nat 0) with 0%nat. cbn [app nth].
    replace (zlen v <? 254) with true by lia.
    destruct (Z.eqb_spec (zlen v) 0) as [E|E].
    + assert (v = []) as -> by (destruct v; [reflexivity|rewrite zlen_cons in E; pose proof (zlen_nonneg v); lia]).
      subst k. vm_compute. reflexivity.
    + cbn [andb]. f_equal.
      apply (peek_mid [zlen v] v (repeat 0 k)).
  - set (k := Z.to_nat (4 * _ - _ - _)). set (n := zlen v) in *.
    set (p := 254 + n mod 2) in *. cbn zeta.
    set (s := (n - p) / 2).
    assert (Hs : 0 <= s < 65536) by (subst s p; lia).
    assert (Hps : p + s * 2 = n) by (subst s p; lia).
    change (Z.to_nat 0) with 0%nat. change (Z.to_nat 1) with 1%nat. change (Z.to_nat (1 + 1)) with 2%nat.
    cbn [app nth].
    replace (p =? 0) with false by (subst p; lia).
    replace (p <? 254) with false by (subst p; lia). cbn [andb].
    f_equal.
    replace (p + (s mod 256 + 256 * (s / 256)) * 2) with n by lia.
    apply (peek_mid [p; s mod 256; s / 256] v (repeat 0 k)).
Qed.

Lemma string_roundtrip m v :
  zlen v <= string_max_length -> zlen m = 4 * string_units (zlen v) ->
  string_read (string_store m v) = Str v.
Proof.
  intros H1 H2. rewrite string_store_enc by assumption. apply string_enc_read; assumption.
Qed.

Lemma string_enc_brutto v :
  zlen v <= string_max_length ->
  string_brutto_units (string_enc v) = string_units (zlen v) /\
  zlen (string_enc v) = 4 * string_units (zlen v) /\
  string_length (string_enc v) = zlen v.
Proof.
  unfold string_max_length. intros Hmax. pose proof (zlen_nonneg v) as Hn.
  unfold string_brutto_units, string_length, string_is_tiny, string_enc, byte_at, u16_at, byte_at,
    string_units, tiny_threshold. rewrite !bytes2units_div.
  destruct (Z.ltb_spec (zlen v) 254) as [L|L].
  - change (Z.to_nat 0) with 0%nat. cbn [app nth].
    replace (zlen v <? 254) with true by lia.
    split; [f_equal; lia|]. split; [|reflexivity].
    rewrite !zlen_cons, !zlen_app, zlen_repeat. lia.
  - set (n := zlen v) in *. set (p := 254 + n mod 2) in *. cbn zeta.
    set (s := (n - p) / 2).
    assert (Hs : 0 <= s < 65536) by (subst s p; lia).
    assert (Hps : p + s * 2 = n) by (subst s p; lia).
    change (Z.to_nat 0) with 0%nat. change (Z.to_nat 1) with 1%nat. change (Z.to_nat (1 + 1)) with 2%nat.
    cbn [app nth]. replace (p <? 254) with false by (subst p; lia).
    split; [f_equal; lia|]. split; [|lia].
    rewrite !zlen_cons, !zlen_app, zlen_repeat. change (zlen v) with n. lia.
Qed.

(** A zero byte follows the string whenever its last unit is not full. *)
Lemma string_nul m v :
  zlen v <= string_max_length -> zlen m = 4 * string_units (zlen v) ->
  let hdr := if zlen v <? 254 then 1 else 3 in
  (hdr + zlen v) mod 4 <> 0 ->
  hdr + zlen v < zlen (string_store m v) /\
  byte_at (string_store m v) (hdr + zlen v) = 0.
Proof.
  intros Hmax Hm hdr Hr. rewrite string_store_enc by assumption.
  destruct (string_enc_brutto v Hmax) as (_ & HL & _). rewrite HL. clear HL.
  pose proof (zlen_nonneg v) as Hn. split.
  - unfold string_units, tiny_threshold. rewrite bytes2units_div. fold hdr. subst hdr.
    destruct (zlen v <? 254); lia.
  - unfold string_enc, byte_at, hdr. destruct (zlen v <? 254).
    + rewrite app_assoc, nth_app_z. rewrite zlen_app, zlen_cons, zlen_nil.
      replace (Z.of_nat _ <? _) with false by lia. apply nth_repeat0.
    + cbn zeta. rewrite app_assoc, nth_app_z. rewrite zlen_app, !zlen_cons, zlen_nil.
      replace (Z.of_nat _ <? _) with false by lia. apply nth_repeat0.
Qed.

Lemma varbin_enc_facts v :
  bytes2units (zlen v) + 1 <= 65535 ->
  varbin_brutto_units (varbin_enc v) = bytes2units (zlen v) + 1 /\
  zlen (varbin_enc v) = 4 * (bytes2units (zlen v) + 1) /\
  varbin_length (varbin_enc v) =
    if zlen v mod 4 =? 0 then zlen v else zlen v + 4.
Proof.
  intros Hmax. pose proof (zlen_nonneg v) as Hn.
  unfold varbin_brutto_units, varbin_length, varbin_enc, u16_at, byte_at.
  rewrite units2bytes_mul, land3. rewrite !bytes2units_div in *.
  set (b := (zlen v + 3) / 4 + 1) in *. cbn zeta.
  change (Z.to_nat 0) with 0%nat. change (Z.to_nat (0 + 1)) with 1%nat.
  change (Z.to_nat 2) with 2%nat. change (Z.to_nat (2 + 1)) with 3%nat.
  cbn [app nth].
  split; [lia|]. split.
  - rewrite !zlen_cons, !zlen_app, zlen_repeat. lia.
  - unfold u64. rewrite Z.mod_small by lia.
    destruct (Z.eqb_spec (zlen v mod 4) 0); lia.
Qed.

Lemma varbin_enc_shape v :
  exists h t, varbin_enc v = h ++ v ++ t /\ zlen h = 4.
Proof. unfold varbin_enc. eexists _, _. split; reflexivity. Qed.

Lemma varbin_roundtrip_aligned m v after :
  bytes2units (zlen v) + 1 <= 65535 -> zlen m = 4 * (bytes2units (zlen v) + 1) ->
  zlen v mod 4 = 0 ->
  varbin_read (varbin_store m v) after = v.
Proof.
  intros H1 H2 H3. rewrite varbin_store_enc by assumption.
  destruct (varbin_enc_facts v H1) as (_ & _ & HL).
  unfold varbin_read. rewrite HL. replace (zlen v mod 4 =? 0) with true by lia.
  destruct (varbin_enc_shape v) as (h & t & -> & Hh). rewrite <- Hh at 1.
  rewrite <- !app_assoc. apply peek_mid.
Qed.

Lemma varbin_unaligned_overread m v :
  bytes2units (zlen v) + 1 <= 65535 -> zlen m = 4 * (bytes2units (zlen v) + 1) ->
  zlen v mod 4 <> 0 ->
  varbin_length (varbin_store m v) = zlen v + 4 /\
  4 + varbin_length (varbin_store m v) > zlen (varbin_store m v).
Proof.
  intros H1 H2 H3. rewrite varbin_store_enc by assumption.
  destruct (varbin_enc_facts v H1) as (_ & HZ & HL). rewrite HL, HZ.
  replace (zlen v mod 4 =? 0) with false by lia. split; [reflexivity|].
  rewrite bytes2units_div. pose proof (zlen_nonneg v). lia.
Qed.

Lemma property_roundtrip m v id :
  zlen v <= 255 -> 0 <= id < 256 -> zlen m = 4 * bytes2units (zlen v + 2) ->
  property_read (property_store m v id) = (v, id) /\
  property_brutto_units (property_store m v id) = bytes2units (zlen v + 2) /\
  zlen (property_store m v id) = zlen m.
Proof.
  intros H1 H2 H3. rewrite property_store_enc by assumption.
  pose proof (zlen_nonneg v) as Hn.
  unfold property_read, property_brutto_units, property_enc, byte_at.
  change (Z.to_nat 0) with 0%nat. change (Z.to_nat 1) with 1%nat.
  set (k := Z.to_nat (4 * _ - _ - _)). cbn [app nth]. split; [|split].
  - f_equal. apply (peek_mid [zlen v; id] v (repeat 0 k)).
  - f_equal. lia.
  - subst k. rewrite !zlen_cons, !zlen_app, zlen_repeat, H3, bytes2units_div. lia.
Qed.

(** Nested tuples *)
Lemma peek_all (m : list Z) : peek m 0 (zlen m) = m.
Proof. unfold peek, zlen. rewrite Nat2Z.id. cbn [Z.to_nat skipn]. apply firstn_all. Qed.

Lemma nested_roundtrip m t :
  1 <= u16_at t 0 -> zlen t = 4 * u16_at t 0 -> zlen m = zlen t ->
  nested_store m (Some t) = t /\ nested_estimate (Some t) = u16_at t 0.
Proof.
  intros H1 H2 H3. split; [|reflexivity].
  unfold nested_store. rewrite units2bytes_mul, <- H2, peek_all.
  assert (Hb : forall x, zlen (u16_bytes x) = 2) by reflexivity.
  set (e := u16_bytes 0) in *. assert (He : zlen e = 2) by reflexivity. clearbody e.
  abs_blit m m1 N1. abs_blit m1 m2 N2. 
  destruct (blit_spec m2 0 t) as [L3 N3]; [lia|lia|].
  apply zlen_ext; [lia|]. intros i Hi. rewrite N3.
  assert (Z.of_nat i < zlen (blit m2 0 t)) by (unfold zlen; lia).
  replace (0 <=? Z.of_nat i) with true by lia.
  replace (Z.of_nat i <? 0 + zlen t) with true by lia. cbn [andb]. f_equal. lia.
Qed.

Lemma looseitems_roundtrip count flags :
  0 <= count <= 8191 -> 0 <= flags < 8 ->
  Z.shiftr (looseitems_flags count flags) 3 = count /\
  Z.land (looseitems_flags count flags) 1 = flags mod 2 /\
  looseitems_flags count flags mod 8 = flags.
Proof.
  intros H1 H2. unfold looseitems_flags, u16.
  rewrite Z.shiftl_mul_pow2, Z.shiftr_div_pow2, land1 by lia.
  change (2 ^ 3) with 8. change (2 ^ 16) with 65536.
  rewrite Z.mod_small by lia. split; [|split]; lia.
Qed.

(** Decisions of the estimators *)
Lemma string_estimate_spec n u :
  0 <= n -> (string_estimate n = Some u <-> n <= 131325 /\ u = string_units n).
Proof.
  intros Hn. unfold string_estimate, string_max_length.
  destruct (n >? 65535 * 2 + 255) eqn:E; split; intros H.
  - discriminate.
  - lia.
  - injection H as <-. split; [lia|reflexivity].
  - destruct H as [_ ->]. reflexivity.
Qed.

Lemma varbin_estimate_spec n u :
  0 <= n -> (varbin_estimate n = Some u <-> n <= 262136 /\ u = (n + 3) / 4 + 1).
Proof.
  intros Hn. unfold varbin_estimate. rewrite bytes2units_div.
  destruct (_ >? 65535) eqn:E; split; intros H.
  - discriminate.
  - lia.
  - injection H as <-. split; [lia|reflexivity].
  - destruct H as [_ ->]. reflexivity.
Qed.

Lemma property_estimate_spec n u :
  0 <= n -> (property_estimate n = Some u <-> n <= 255 /\ u = (n + 2 + 3) / 4).
Proof.
  intros Hn. unfold property_estimate. rewrite bytes2units_div.
  destruct (n >? 255) eqn:E; split; intros H.
  - discriminate.
  - lia.
  - injection H as <-. split; [lia|reflexivity].
  - destruct H as [_ ->]. reflexivity.
Qed.

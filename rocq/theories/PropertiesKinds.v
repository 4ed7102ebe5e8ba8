(** * Property theorems: the kinds of tokens and what the setters and getters take (C97). *)
From Coq Require Import List.
From Verif Require Import Base Tag TagProofs Gear Tuple TupleMore Schema SchemaProofs Numeric Kinds.
From Coq Require Import ZifyBool ZifyNat.
Ltac Zify.zify_post_hook ::= Z.div_mod_to_equations.

Ltac ifs := repeat match goal with |- context [if ?c then _ else _] => destruct c end.

(** The kinds of a type, from the numbers of the types alone. *)
Lemma genus_cases (P : Z -> Prop) :
  P 0 -> P 1 -> P 2 -> P 3 -> P 4 -> P 5 -> P 6 -> P 7 -> P 8 -> P 9 -> P 10 -> P 11 -> P 12 -> P 13 -> P 14 -> P 15 ->
  P 16 -> P 17 -> P 18 -> P 19 -> P 20 -> P 21 -> P 22 -> P 23 -> P 24 -> P 25 -> P 26 -> P 27 -> P 28 -> P 29 -> P 30 -> P 31 ->
  forall g, 0 <= g <= 31 -> P g.
Proof.
  intros. destruct g as [|p|p]; [assumption| |lia].
  do 5 (destruct p as [p|p|]; try assumption; try lia).
Qed.
Lemma integer_genus g : 0 <= g <= 31 -> test_bit mask_integer g = int_genus g.
Proof. revert g. apply genus_cases; reflexivity. Qed.
Lemma unsigned_genus_bit g : 0 <= g <= 31 -> test_bit mask_unsigned g = unsigned_genus g.
Proof. revert g. apply genus_cases; reflexivity. Qed.
Lemma signed_genus_bit g : 0 <= g <= 31 -> test_bit mask_signed g = signed_genus g || is_float_genus g || (g =? g_d64).
Proof. revert g. apply genus_cases; reflexivity. Qed.
Lemma float_genus_bit g : 0 <= g <= 31 -> test_bit mask_float g = is_float_genus g || (g =? g_d64).
Proof. revert g. apply genus_cases; reflexivity. Qed.
Lemma number_genus_bit g : 0 <= g <= 31 -> test_bit mask_number g = int_genus g || is_float_genus g || (g =? g_d64).
Proof. revert g. apply genus_cases; reflexivity. Qed.
Lemma genus_range t : tagrange t -> 0 <= tag2genus t <= 31.
Proof. intros R. apply (tag_parts t R). Qed.

(** ** The kinds fit together: a number is an integer or floating, never both; it is signed or unsigned,
    never both; everything unsigned is an integer, everything floating is signed; numbers are of fixed size. *)
Theorem C97_kinds : forall t, tagrange t ->
  token_number t = xorb (token_integer t) (token_float t) /\
  token_number t = xorb (token_signed t) (token_unsigned t) /\
  (token_integer t && token_float t = false) /\ (token_signed t && token_unsigned t = false) /\
  (token_unsigned t = true -> token_integer t = true) /\
  (token_float t = true -> token_signed t = true) /\
  (token_decimal t = true -> token_float t = true) /\
  (token_number t = true -> token_stretchy t = false) /\
  (token_text t = true -> token_stretchy t = true).
Proof.
  intros t R. pose proof (genus_range t R) as G.
  assert (F : token_stretchy t = (tag2genus t <? 4)).
  { unfold token_stretchy, is_fixed_size. rewrite tag2genus_arith. unfold tagrange in R.
    assert (L : Z.land t 0xE000 = (t / 2 ^ 13) mod 2 ^ 3 * 2 ^ 13).
    { change 0xE000 with (Z.shiftl (Z.ones 3) 13). rewrite <- Z.land_ones, <- Z.shiftr_div_pow2, <- Z.shiftl_mul_pow2 by lia.
      apply Z.bits_inj'. intros n Hn. rewrite Z.land_spec, !Z.shiftl_spec by lia.
      destruct (Z_lt_dec n 13) as [L|L].
      - rewrite (Z.testbit_neg_r _ (n - 13)), (Z.testbit_neg_r (Z.land _ _) (n - 13)) by lia. apply Bool.andb_false_r.
      - rewrite Z.land_spec, Z.shiftr_spec by lia. replace (n - 13 + 13) with n by lia. reflexivity. }
    rewrite L. destruct (_ =? 0) eqn:E; cbn [negb]; lia. }
  unfold token_text, token_number, token_integer, token_float, token_signed, token_unsigned, token_decimal. rewrite F. clear F.
  revert G. generalize (tag2genus t). apply genus_cases; repeat split; intros; reflexivity || discriminate.
Qed.

(** The kind is a matter of the type: no attribute changes it, and tokens of the same field agree. *)
Theorem C97_same_field : forall t u, tagrange t -> tagrange u -> tag_same t u = true ->
  token_number t = token_number u /\ token_integer t = token_integer u /\ token_signed t = token_signed u /\
  token_unsigned t = token_unsigned u /\ token_float t = token_float u /\ token_decimal t = token_decimal u /\
  token_bool t = token_bool u /\ token_enum t = token_enum u /\ token_text t = token_text u /\
  (forall b, tag_same (enforce_discernible_null t b) t = true /\ tag_same (enforce_saturation t b) t = true).
Proof.
  intros t u R S E.
  assert (M : tag2genus t = tag2genus u).
  { rewrite !tag2genus_arith. f_equal. unfold tag_same in E. apply Z.eqb_eq in E. unfold tagrange in *.
    assert (K : forall v, 0 <= v < 2 ^ 32 -> normalize_tag v mod 2 ^ 16 = v mod 2 ^ 16).
    { intros v V. destruct (Z_lt_dec v loose_threshold).
      - rewrite normalize_preplaced by lia. lia.
      - rewrite normalize_loose by lia. lia. }
    rewrite <- (K t), <- (K u), E by lia. reflexivity. }
  unfold token_text, token_number, token_integer, token_float, token_signed, token_unsigned, token_decimal, token_bool, token_enum.
  rewrite M. repeat (split; [reflexivity|]).
  intros b. unfold tag_same. split; apply Z.eqb_eq; [apply enforce_null_keeps, R|apply enforce_sat_keeps, R].
Qed.

(** ** What the generic setters take is what the kinds say, decimals excepted *)
Theorem C97_setters : forall t v, tagrange t ->
  (set_integer_i64 (tag2genus t) v = PMismatch <-> token_integer t && token_signed t = false) /\
  (set_unsigned_u64 (tag2genus t) v = PMismatch <-> token_unsigned t = false) /\
  (forall lo hi, set_number_int lo hi (tag2genus t) v = PMismatch <-> token_number t && negb (token_decimal t) = false) /\
  (set_float (tag2genus t) v = PMismatch <-> token_float t && negb (token_decimal t) = false) /\
  (forall f, fnan (dec f v) = false ->
     set_number_float f (tag2genus t) v = Some PMismatch <-> token_number t && negb (token_decimal t) = false).
Proof.
  intros t v R. pose proof (genus_range t R) as G.
  unfold token_number, token_integer, token_float, token_signed, token_unsigned, token_decimal.
  rewrite integer_genus, unsigned_genus_bit, signed_genus_bit, float_genus_bit, number_genus_bit by exact G.
  set (g := tag2genus t) in *. clearbody g.
  assert (TI : forall z, to_int g z <> Some PMismatch).
  { intros z. unfold to_int. destruct (ftrunc z); [|discriminate]. ifs; discriminate. }
  split; [|split; [|split; [|split]]].
  - unfold set_integer_i64, int_genus. destruct (g =? g_i64) eqn:E.
    + apply Z.eqb_eq in E. subst g. split; discriminate.
    + destruct (signed_genus g) eqn:E2.
      * cbn. split; [|discriminate]. ifs; discriminate.
      * split; [intros _|reflexivity]. revert G E2. revert g E TI. intros g _ _ G. revert g G. 
        apply (genus_cases (fun g => signed_genus g = false -> (false || unsigned_genus g) && (false || is_float_genus g || (g =? g_d64)) = false)); reflexivity || discriminate.
  - unfold set_unsigned_u64. destruct (g =? g_u64) eqn:E.
    + apply Z.eqb_eq in E. subst g. split; discriminate.
    + destruct (unsigned_genus g); [|tauto]. split; [|discriminate]. ifs; discriminate.
  - intros lo hi. unfold set_number_int, is_float_genus.
    destruct (g =? g_f32) eqn:E1; [apply Z.eqb_eq in E1; subst g; split; [ifs; discriminate|discriminate]|].
    destruct (g =? g_f64) eqn:E2; [apply Z.eqb_eq in E2; subst g; split; [ifs; discriminate|discriminate]|].
    destruct (int_genus g) eqn:E3.
    + assert (D : (g =? g_d64) = false).
      { destruct (g =? g_d64) eqn:D; [|reflexivity]. apply Z.eqb_eq in D. subst g. discriminate E3. }
      rewrite D. cbn. split; [ifs; discriminate|discriminate].
    + cbn. split; [intros _|reflexivity]. destruct (g =? g_d64); reflexivity.
  - unfold set_float, is_float_genus.
    destruct (g =? g_f32) eqn:E1; [apply Z.eqb_eq in E1; subst g; split; [ifs; discriminate|discriminate]|].
    destruct (g =? g_f64) eqn:E2; [apply Z.eqb_eq in E2; subst g; split; discriminate|].
    cbn. split; [intros _|reflexivity]. destruct (g =? g_d64); reflexivity.
  - intros f NN. unfold set_number_float. cbv zeta. rewrite NN. cbn [andb]. unfold is_float_genus.
    destruct (g =? g_f32) eqn:E1.
    { apply Z.eqb_eq in E1. subst g. split; [|discriminate]. ifs; discriminate. }
    destruct (g =? g_f64) eqn:E2; [apply Z.eqb_eq in E2; subst g; split; discriminate|].
    destruct (int_genus g) eqn:E3.
    + assert (D : (g =? g_d64) = false).
      { destruct (g =? g_d64) eqn:D; [|reflexivity]. apply Z.eqb_eq in D. subst g. discriminate E3. }
      rewrite D. cbn [orb andb negb]. split; [|discriminate]. intros Q. exfalso. revert Q.
      ifs; try discriminate; apply TI.
    + assert (D : ((g =? g_i8) || (g =? g_i16) || (g =? g_u8) || (g =? g_u16)) = false).
      { unfold int_genus, signed_genus, unsigned_genus in E3. lia. }
      rewrite D. cbn. split; [intros _|reflexivity]. destruct (g =? g_d64); reflexivity.
Qed.

(** What the getters take; [typed] is what the getter of the field's own type gives. *)
Theorem C97_getters : forall t typed, tagrange t -> typed <> RMis ->
  (get_integer (tag2genus t) typed = RMis <-> token_integer t && token_signed t = false) /\
  (get_unsigned (tag2genus t) typed = RMis <-> token_unsigned t = false) /\
  (get_double (tag2genus t) typed = RMis <-> token_number t && negb (token_decimal t) = false).
Proof.
  intros t typed R N. pose proof (genus_range t R) as G.
  unfold token_number, token_integer, token_signed, token_unsigned, token_decimal.
  rewrite integer_genus, unsigned_genus_bit, signed_genus_bit, number_genus_bit by exact G.
  set (g := tag2genus t) in *. clearbody g. split; [|split].
  - unfold get_integer, int_genus. destruct (signed_genus g) eqn:E2; [cbn; split; [contradiction|discriminate]|].
    split; [intros _|reflexivity]. revert E2. revert g G.
    apply (genus_cases (fun g => signed_genus g = false -> (false || unsigned_genus g) && (false || is_float_genus g || (g =? g_d64)) = false)); reflexivity || discriminate.
  - unfold get_unsigned. destruct (unsigned_genus g); [split; [contradiction|discriminate]|tauto].
  - unfold get_double, is_float_genus.
    destruct (g =? g_f32) eqn:E1; [apply Z.eqb_eq in E1; subst g; split; [destruct typed; try discriminate; contradiction|discriminate]|].
    destruct (g =? g_f64) eqn:E2; [apply Z.eqb_eq in E2; subst g; split; [contradiction|discriminate]|].
    destruct (int_genus g) eqn:E3.
    + assert (D : (g =? g_d64) = false).
      { destruct (g =? g_d64) eqn:D; [|reflexivity]. apply Z.eqb_eq in D. subst g. discriminate E3. }
      rewrite D. cbn. split; [|discriminate]. destruct typed; try discriminate; [|contradiction]. ifs; discriminate.
    + cbn. split; [intros _|reflexivity]. destruct (g =? g_d64); reflexivity.
Qed.

(** [get_float] takes the floating kinds but decimals, and gives what the getter of numbers gives. *)
Theorem C97_get_float : forall t typed, tagrange t -> typed <> RMis ->
  (get_float (tag2genus t) typed = RMis <-> token_float t && negb (token_decimal t) = false) /\
  (get_float (tag2genus t) typed <> RMis -> get_float (tag2genus t) typed = get_double (tag2genus t) typed).
Proof.
  intros t typed R N. pose proof (genus_range t R) as G.
  unfold token_float, token_decimal. rewrite float_genus_bit by exact G.
  set (g := tag2genus t) in *. clearbody g. unfold get_float, get_double, is_float_genus.
  destruct (g =? g_f32) eqn:E1; [apply Z.eqb_eq in E1; subst g; split; [split; [destruct typed; try discriminate; contradiction|discriminate]|reflexivity]|].
  destruct (g =? g_f64) eqn:E2; cbn [negb].
  - apply Z.eqb_eq in E2. subst g. split; [split; [contradiction|discriminate]|reflexivity].
  - split; [|intros Q; exfalso; apply Q; reflexivity]. cbn. split; [intros _|reflexivity]. destruct (g =? g_d64); reflexivity.
Qed.
Example C97_get_float_case :
  get_float (tag2genus (make_tag g_f32 5 false true false)) (loose_bits g_f32 true (Some [1069547520])) = GotF (FFin false (3 * 2 ^ 51) (-52)) /\
  get_float (tag2genus (make_tag g_i32 5 false true false)) (Got 7) = RMis /\
  get_double (tag2genus (make_tag g_i32 5 false true false)) (Got 7) = GotF (FFin false (7 * 2 ^ 50) (-50)).
Proof. vm_compute. repeat split. Qed.

(** Decimals are numbers, floating and signed by their kind; no generic setter or getter takes them. *)
Theorem C97_decimal_refuted : forall t, tagrange t -> token_decimal t = true ->
  token_number t = true /\ token_float t = true /\ token_signed t = true /\
  (forall lo hi v, set_number_int lo hi (tag2genus t) v = PMismatch) /\
  (forall v, set_float (tag2genus t) v = PMismatch) /\
  (forall f v, set_number_float f (tag2genus t) v = Some PMismatch) /\
  (forall typed, get_double (tag2genus t) typed = RMis).
Proof.
  intros t R D. unfold token_decimal in D. apply Z.eqb_eq in D.
  unfold token_number, token_float, token_signed. rewrite D.
  repeat (split; [reflexivity|]). split; [|reflexivity].
  intros f v. unfold set_number_float. cbv zeta. replace (fnan (dec f v) && _) with false; [reflexivity|].
  cbn. rewrite Bool.andb_false_r. reflexivity.
Qed.
(** Booleans and enumerations are numbers of one and two bytes: the kinds do not tell them apart. *)
Theorem C97_bool_refuted : forall t, tagrange t ->
  (token_bool t = true -> token_number t = true /\ tag2genus t = g_i8 /\ forall v, set_integer_i64 (tag2genus t) v <> PMismatch) /\
  (token_enum t = true -> token_number t = true /\ tag2genus t = g_i16 /\ forall v, set_integer_i64 (tag2genus t) v <> PMismatch).
Proof.
  intros t R. unfold token_bool, token_enum, token_number.
  split; intros E; apply Z.eqb_eq in E; rewrite E; (split; [reflexivity|]); (split; [reflexivity|]);
    intros v; unfold set_integer_i64; cbn [Z.eqb]; change (signed_genus g_i8) with true; change (signed_genus g_i16) with true;
    [change (g_i8 =? g_i64) with false|change (g_i16 =? g_i64) with false]; cbv iota; ifs; discriminate.
Qed.

Example C97_case :
  map (fun g => let t := make_tag g 5 false true false in
         (token_number t, token_integer t, token_signed t, token_unsigned t, token_float t))
      [g_text; g_i8; g_u16; g_f32; g_t32; g_d64; g_bin128; g_ipnet] =
  [(false, false, false, false, false); (true, true, true, false, false); (true, true, false, true, false);
   (true, false, true, false, true); (false, false, false, false, false); (true, false, true, false, true);
   (false, false, false, false, false); (false, false, false, false, false)] /\
  tagrange (make_tag g_d64 5 false true false) /\ token_decimal (make_tag g_d64 5 false true false) = true /\
  set_integer_i64 (tag2genus (make_tag g_i16 5 false true false)) 40000 = PRange /\
  tag_same (make_tag g_i16 5 false true false) (make_tag g_i16 5 true false true) = true /\
  token_bool (make_tag g_i8 5 false true false) = true /\ fnan (dec binary64 0) = false.
Proof. vm_compute. repeat split; discriminate. Qed.

Print Assumptions C97_kinds.
Print Assumptions C97_same_field.
Print Assumptions C97_setters.
Print Assumptions C97_getters.
Print Assumptions C97_decimal_refuted.
Print Assumptions C97_bool_refuted.
Print Assumptions C97_get_float.

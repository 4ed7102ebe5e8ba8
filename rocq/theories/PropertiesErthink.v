(** * Properties of the arithmetic helpers: C36, C37 *)
From Verif Require Import Base Erthink ErthinkProofs.
From Coq Require Import ZifyBool ZifyNat.
Ltac Zify.zify_post_hook ::= Z.div_mod_to_equations.

(** ** C36 *)
(** The two halves of the product are exact. *)
Theorem C36_multiplication_exact : forall a b, 0 <= a < 2 ^ 64 -> 0 <= b < 2 ^ 64 ->
  let '(high, low) := mul_64x64_128 a b in high = (a * b) / 2 ^ 64 /\ low = (a * b) mod 2 ^ 64.
Proof.
  intros a b Ha Hb. pose proof (mul_exact a b Ha Hb) as M. destruct (mul_64x64_128 a b) as [h l].
  generalize dependent (a * b). intros z M. lia.
Qed.
Example C36_multiplication_carries : mul_64x64_128 (2 ^ 64 - 1) (2 ^ 64 - 1) = (2 ^ 64 - 2, 1).
Proof. vm_compute. reflexivity. Qed.

(** Sum and carry together are the exact sum, in the first and in every following word. *)
Theorem C36_carry_addition_exact : forall a b c, 0 <= a < 2 ^ 64 -> 0 <= b < 2 ^ 64 -> 0 <= c <= 1 ->
  add64carry_first a b = ((a + b) / 2 ^ 64, (a + b) mod 2 ^ 64) /\
  add64carry_next c a b = ((a + b + c) / 2 ^ 64, (a + b + c) mod 2 ^ 64) /\
  add64carry_last c a b = (a + b + c) mod 2 ^ 64 /\
  msvc32_add64carry_first a b = ((a + b) / 2 ^ 64, (a + b) mod 2 ^ 64) /\
  msvc32_add64carry_next c a b = ((a + b + c) / 2 ^ 64, (a + b + c) mod 2 ^ 64).
Proof.
  intros a b c Ha Hb Hc.
  pose proof (add_first_exact a b Ha Hb) as H1. destruct (add64carry_first a b).
  pose proof (add_next_exact c a b Hc Ha Hb) as H2. destruct (add64carry_next c a b).
  unfold msvc32_add64carry_first.
  pose proof (msvc_next_exact 0 a b ltac:(lia) Ha Hb) as H3. destruct (msvc32_add64carry_next 0 a b).
  pose proof (msvc_next_exact c a b Hc Ha Hb) as H4. destruct (msvc32_add64carry_next c a b).
  repeat split; try (f_equal; lia).
Qed.

(** A chain of words: adding two numbers of any length word by word gives the exact sum. *)
Fixpoint add_words (carry : Z) (a b : list Z) : Z * list Z :=
  match a, b with
  | x :: a, y :: b => let '(c, s) := add64carry_next carry x y in let '(c', r) := add_words c a b in (c', s :: r)
  | _, _ => (carry, [])
  end.
Fixpoint words_value (l : list Z) : Z := match l with [] => 0 | x :: l => x + 2 ^ 64 * words_value l end.
Theorem C36_carry_chain_exact : forall a b c, length a = length b ->
  Forall (fun x => 0 <= x < 2 ^ 64) a -> Forall (fun x => 0 <= x < 2 ^ 64) b -> 0 <= c <= 1 ->
  let '(c', r) := add_words c a b in
  words_value a + words_value b + c = words_value r + c' * 2 ^ (64 * Z.of_nat (length a)).
Proof.
  induction a as [|x a IH]; intros [|y b] c L Fa Fb Hc; try discriminate L.
  - cbn [add_words words_value length]. change (64 * Z.of_nat 0) with 0. lia.
  - cbn [add_words]. inversion Fa; subst. inversion Fb; subst.
    pose proof (add_next_exact c x y Hc ltac:(assumption) ltac:(assumption)) as N.
    destruct (add64carry_next c x y) as [c1 s]. destruct N as (N1 & N2 & N3).
    specialize (IH b c1 ltac:(injection L; auto) ltac:(assumption) ltac:(assumption) N3).
    destruct (add_words c1 a b) as [c2 r]. cbn [words_value length].
    replace (2 ^ (64 * Z.of_nat (S (length a)))) with (2 ^ 64 * 2 ^ (64 * Z.of_nat (length a)))
      by (rewrite <- Z.pow_add_r by lia; f_equal; lia).
    set (q := 2 ^ (64 * Z.of_nat (length a))) in *. clearbody q.
    replace (c2 * (2 ^ 64 * q)) with (2 ^ 64 * (c2 * q)) by ring. lia.
Qed.
Example C36_carry_ripples : add_words 1 [2 ^ 64 - 1; 2 ^ 64 - 1; 7] [0; 0; 1] = (0, [0; 0; 9]).
Proof. vm_compute. reflexivity. Qed.

(** Byte i of the swapped word is byte (width-1-i) of the word, and swapping twice changes nothing. *)
Theorem C36_bswap_reverses_bytes : forall v,
  (0 <= v < 2 ^ 64 -> forall i, 0 <= i < 8 -> Z.land (Z.shiftr (bswap64 v) (8 * i)) 255 = Z.land (Z.shiftr v (8 * (7 - i))) 255) /\
  (0 <= v < 2 ^ 32 -> forall i, 0 <= i < 4 -> Z.land (Z.shiftr (bswap32 v) (8 * i)) 255 = Z.land (Z.shiftr v (8 * (3 - i))) 255) /\
  (0 <= v < 2 ^ 16 -> forall i, 0 <= i < 2 -> Z.land (Z.shiftr (bswap16 v) (8 * i)) 255 = Z.land (Z.shiftr v (8 * (1 - i))) 255).
Proof.
  intros v. split; [|split]; intros Hv i Hi.
  - apply (byte_swap bswap64 8 v); [|lia]. intros j Hj. apply bswap64_bits; lia.
  - apply (byte_swap bswap32 4 v); [|lia]. intros j Hj. apply bswap32_bits; lia.
  - apply (byte_swap bswap16 2 v); [|lia]. intros j Hj. apply bswap16_bits; lia.
Qed.
Theorem C36_bswap_involutive : forall v,
  (0 <= v < 2 ^ 64 -> 0 <= bswap64 v < 2 ^ 64 /\ bswap64 (bswap64 v) = v) /\
  (0 <= v < 2 ^ 32 -> 0 <= bswap32 v < 2 ^ 32 /\ bswap32 (bswap32 v) = v) /\
  (0 <= v < 2 ^ 16 -> 0 <= bswap16 v < 2 ^ 16 /\ bswap16 (bswap16 v) = v).
Proof.
  intros v. split; [|split]; intros Hv.
  - pose proof (bswap64_range v Hv) as R. split; [exact R|].
    apply (swap_twice bswap64 8 v); auto; try lia; [apply bswap64_range; exact R|]. intros w Hw i Hi. apply bswap64_bits; lia.
  - pose proof (bswap32_range v Hv) as R. split; [exact R|].
    apply (swap_twice bswap32 4 v); auto; try lia; [apply bswap32_range; exact R|]. intros w Hw i Hi. apply bswap32_bits; lia.
  - pose proof (bswap16_range v Hv) as R. split; [exact R|].
    apply (swap_twice bswap16 2 v); auto; try lia; [apply bswap16_range; exact R|]. intros w Hw i Hi. apply bswap16_bits; lia.
Qed.
Example C36_bswap_sample : bswap64 0x0123456789ABCDEF = 0xEFCDAB8967452301 /\ bswap32 0x01234567 = 0x67452301 /\ bswap16 0x0123 = 0x2301.
Proof. vm_compute. auto. Qed.

(** The number n of leading zeros: v fits in (width - n) bits and in no fewer. *)
Theorem C36_leading_zeros_exact : forall v,
  (0 < v < 2 ^ 32 -> let n := fallback_clz32 v in 0 <= n <= 31 /\ 2 ^ (31 - n) <= v < 2 ^ (32 - n)) /\
  (0 < v < 2 ^ 64 -> let n := fallback_clz64 v in 0 <= n <= 63 /\ 2 ^ (63 - n) <= v < 2 ^ (64 - n)) /\
  (0 < v < 2 ^ 64 -> fallback_clz64_arch32 v = fallback_clz64 v).
Proof.
  intros v. split; [|split]; intros Hv.
  - cbv zeta. rewrite clz32_exact by exact Hv. destruct (Z.log2_spec v ltac:(lia)) as [L1 L2].
    assert (Z.log2 v < 32) by (apply Z.log2_lt_pow2; lia). pose proof (Z.log2_nonneg v).
    replace (31 - (31 - Z.log2 v)) with (Z.log2 v) by lia. replace (32 - (31 - Z.log2 v)) with (Z.succ (Z.log2 v)) by lia. lia.
  - cbv zeta. rewrite clz64_exact by exact Hv. destruct (Z.log2_spec v ltac:(lia)) as [L1 L2].
    assert (Z.log2 v < 64) by (apply Z.log2_lt_pow2; lia). pose proof (Z.log2_nonneg v).
    replace (63 - (63 - Z.log2 v)) with (Z.log2 v) by lia. replace (64 - (63 - Z.log2 v)) with (Z.succ (Z.log2 v)) by lia. lia.
  - rewrite clz64_exact, clz64_arch32_exact by exact Hv. reflexivity.
Qed.
Example C36_leading_zeros_sample : fallback_clz32 0x00012345 = 15 /\ fallback_clz64 1 = 63 /\ fallback_clz64 (2 ^ 63) = 0.
Proof. vm_compute. auto. Qed.

(** ** C37 *)
(** [text_at m p e l]: the characters of [l] stand in memory from [p] up to [e]. *)
Definition text_at (m : cmem) (p e : Z) (l : list Z) : Prop :=
  e = p + Z.of_nat (length l) /\ forall i, (i < length l)%nat -> m (p + Z.of_nat i) = nth i l 0.
(** Decimal text without superfluous zeros: only digits, at least one, the first one is not '0'
    unless it is the only one, and the digits spell the number. *)
Definition decimal_text (u : Z) (l : list Z) : Prop :=
  l <> [] /\ Forall (fun c => 48 <= c <= 57) l /\
  fold_left (fun acc c => 10 * acc + (c - 48)) l 0 = u /\ ((length l > 1)%nat -> hd 0 l <> 48).
Definition signed_text (v : Z) (l : list Z) : Prop :=
  (0 <= v -> decimal_text v l) /\ (v < 0 -> exists l', l = 45 :: l' /\ decimal_text (- v) l').

Lemma decimal_fold l : forall a, decimal a l = fold_left (fun acc c => 10 * acc + (c - 48)) l a.
Proof. induction l as [|c l IH]; intros a; [reflexivity|]. cbn [decimal fold_left]. apply IH. Qed.
Lemma canonical_text u l : canonical u l -> decimal_text u l.
Proof. intros (A & B & C & D). repeat split; auto. rewrite <- decimal_fold. exact C. Qed.
Lemma emits_text r p m l : emits r p m l ->
  text_at (snd r) p (fst r) l /\ forall x, ~ (p <= x < fst r) -> snd r x = m x.
Proof.
  intros [E1 E2]. split; [split; [exact E1|]|].
  - intros i Hi. rewrite E2. unfold put_all. replace (_ && _) with true by lia. f_equal. lia.
  - intros x Hx. rewrite E2. unfold put_all. replace (_ && _) with false by lia. reflexivity.
Qed.

(** Unsigned numbers: the canonical decimal text, at most 10 / 20 characters, and no other byte
    of memory is touched. *)
Theorem C37_unsigned_exact : forall u p m,
  (0 <= u < 2 ^ 32 -> exists l, let '(e, m') := u2a32 u p m in
     text_at m' p e l /\ decimal_text u l /\ e - p <= 10 /\ forall x, ~ (p <= x < e) -> m' x = m x) /\
  (0 <= u < 2 ^ 64 -> exists l, let '(e, m') := u2a64 u p m in
     text_at m' p e l /\ decimal_text u l /\ e - p <= 20 /\ forall x, ~ (p <= x < e) -> m' x = m x).
Proof.
  intros u p m. split; intros Hu.
  - destruct (u2a32_ok u p m Hu) as (l & E & C & L). exists l. destruct (emits_text _ _ _ _ E) as [T1 T2].
    destruct (u2a32 u p m) as [e m']. destruct E as [E _]. cbn [fst snd] in *.
    repeat split; try apply T1; auto; try apply (canonical_text _ _ C); lia.
  - destruct (u2a64_ok u p m Hu) as (l & E & C & L). exists l. destruct (emits_text _ _ _ _ E) as [T1 T2].
    destruct (u2a64 u p m) as [e m']. destruct E as [E _]. cbn [fst snd] in *.
    repeat split; try apply T1; auto; try apply (canonical_text _ _ C); lia.
Qed.
Definition blank : cmem := fun _ => 0.
Definition shown (r : Z * cmem) (p : Z) : list Z := map (fun i => snd r (p + Z.of_nat i)) (seq 0 (Z.to_nat (fst r - p))).
Example C37_unsigned_sample :
  shown (u2a64 18446744073709551615 100 blank) 100 =
    [49;56;52;52;54;55;52;52;48;55;51;55;48;57;53;53;49;54;49;53] /\
  shown (u2a64 0 100 blank) 100 = [48] /\ shown (u2a32 1000000 3 blank) 3 = [49;48;48;48;48;48;48].
Proof. vm_compute. auto. Qed.

(** Signed numbers, except the most negative one of each width. *)
Theorem C37_signed_partial : forall v p m,
  (- 2 ^ 31 < v < 2 ^ 31 -> exists e m' l, i2a32 v p m = Some (e, m') /\
     text_at m' p e l /\ signed_text v l /\ e - p <= 11 /\ forall x, ~ (p <= x < e) -> m' x = m x) /\
  (- 2 ^ 63 < v < 2 ^ 63 -> exists e m' l, i2a64 v p m = Some (e, m') /\
     text_at m' p e l /\ signed_text v l /\ e - p <= 20 /\ forall x, ~ (p <= x < e) -> m' x = m x).
Proof.
  intros v p m. split; intros Hv.
  - destruct (i2a_gen u2a32 32 10 v p m ltac:(lia) Hv u2a32_ok) as ([e m'] & l & R & E & C & L).
    exists e, m', l. split; [exact R|]. destruct (emits_text _ _ _ _ E) as [T1 T2]. destruct E as [E _]. cbn [fst snd] in *.
    split; [exact T1|]. split; [|split; [lia|exact T2]]. destruct C as [C1 C2]. split.
    + intros H. apply canonical_text. auto.
    + intros H. destruct (C2 H) as (l' & -> & C). exists l'. split; [reflexivity|]. apply canonical_text. exact C.
  - destruct (i2a_gen u2a64 64 20 v p m ltac:(lia) Hv u2a64_ok) as ([e m'] & l & R & E & C & L).
    exists e, m', l. split; [exact R|]. destruct (emits_text _ _ _ _ E) as [T1 T2]. destruct E as [E _]. cbn [fst snd] in *.
    split; [exact T1|]. destruct C as [C1 C2].
    assert (Len : (length l <= 20)%nat).
    { destruct (Z_lt_ge_dec v 0) as [N|P].
      - destruct (C2 N) as (l' & -> & C). cbn [length]. pose proof (canonical_length _ _ 19 C ltac:(change (10 ^ Z.of_nat 19) with 10000000000000000000; lia) ltac:(lia)). lia.
      - pose proof (canonical_length _ _ 19 (C1 ltac:(lia)) ltac:(change (10 ^ Z.of_nat 19) with 10000000000000000000; lia) ltac:(lia)). lia. }
    split; [|split; [lia|exact T2]]. split.
    + intros H. apply canonical_text. auto.
    + intros H. destruct (C2 H) as (l' & -> & C). exists l'. split; [reflexivity|]. apply canonical_text. exact C.
Qed.
Example C37_signed_sample :
  option_map (fun r => shown r 7) (i2a64 (-9223372036854775807) 7 blank) =
    Some [45;57;50;50;51;51;55;50;48;51;54;56;53;52;55;55;53;56;48;55] /\
  option_map (fun r => shown r 7) (i2a32 (-10203) 7 blank) = Some [45;49;48;50;48;51].
Proof. vm_compute. auto. Qed.

(** The most negative number of either width makes the absolute value overflow in the signed
    type, which is undefined behaviour, although the header promises its text. *)
Theorem C37_most_negative_refuted :
  exists v, - 2 ^ 63 <= v < 2 ^ 63 /\ forall p m, i2a64 v p m = None /\ i2a32 (- 2 ^ 31) p m = None.
Proof. exists (- 2 ^ 63). split; [lia|]. intros p m. split; reflexivity. Qed.

Print Assumptions C36_multiplication_exact.
Print Assumptions C36_carry_addition_exact.
Print Assumptions C36_carry_chain_exact.
Print Assumptions C36_bswap_reverses_bytes.
Print Assumptions C36_bswap_involutive.
Print Assumptions C36_leading_zeros_exact.
Print Assumptions C37_unsigned_exact.
Print Assumptions C37_signed_partial.
Print Assumptions C37_most_negative_refuted.

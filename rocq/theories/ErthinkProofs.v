(** * ErthinkProofs *)
From Verif Require Import Base Erthink.
From Coq Require Import ZifyBool ZifyNat.
Ltac Zify.zify_post_hook ::= Z.div_mod_to_equations.

(** ** Carry *)
Lemma add_first_exact a b : 0 <= a < 2 ^ 64 -> 0 <= b < 2 ^ 64 ->
  let '(c, s) := add64carry_first a b in
  a + b = c * 2 ^ 64 + s /\ 0 <= s < 2 ^ 64 /\ 0 <= c <= 1.
Proof. intros Ha Hb. unfold add64carry_first, u64. destruct (_ <? _) eqn:E; cbn [Z.b2z]; lia. Qed.
Lemma add_next_exact c a b : 0 <= c <= 1 -> 0 <= a < 2 ^ 64 -> 0 <= b < 2 ^ 64 ->
  let '(c', s) := add64carry_next c a b in
  a + b + c = c' * 2 ^ 64 + s /\ 0 <= s < 2 ^ 64 /\ 0 <= c' <= 1.
Proof. intros Hc Ha Hb. unfold add64carry_next, u64. destruct (_ || _) eqn:E; cbn [Z.b2z]; lia. Qed.
Lemma msvc_next_exact c a b : 0 <= c <= 1 -> 0 <= a < 2 ^ 64 -> 0 <= b < 2 ^ 64 ->
  let '(c', s) := msvc32_add64carry_next c a b in
  a + b + c = c' * 2 ^ 64 + s /\ 0 <= s < 2 ^ 64 /\ 0 <= c' <= 1.
Proof. intros Hc Ha Hb. unfold msvc32_add64carry_next, addcarry32. lia. Qed.

(** ** Multiplication *)
Lemma mul_exact a b : 0 <= a < 2 ^ 64 -> 0 <= b < 2 ^ 64 ->
  let '(h, l) := mul_64x64_128 a b in a * b = h * 2 ^ 64 + l /\ 0 <= l < 2 ^ 64 /\ 0 <= h < 2 ^ 64.
Proof.
  intros Ha Hb. unfold mul_64x64_128, mul_32x32_64.
  rewrite !Z.shiftr_div_pow2, !Z.shiftl_mul_pow2 by lia.
  set (al := u32 a). set (bl := u32 b). set (ah := u32 (a / 2 ^ 32)). set (bh := u32 (b / 2 ^ 32)).
  assert (A : a = ah * 2 ^ 32 + al /\ 0 <= al < 2 ^ 32 /\ 0 <= ah < 2 ^ 32) by (unfold ah, al, u32; lia).
  assert (B : b = bh * 2 ^ 32 + bl /\ 0 <= bl < 2 ^ 32 /\ 0 <= bh < 2 ^ 32) by (unfold bh, bl, u32; lia).
  clearbody al bl ah bh. destruct A as (-> & Hal & Hah). destruct B as (-> & Hbl & Hbh).
  assert (M : forall x y, 0 <= x < 2 ^ 32 -> 0 <= y < 2 ^ 32 -> 0 <= x * y <= (2 ^ 32 - 1) * (2 ^ 32 - 1)).
  { intros x y Hx Hy. split; [apply Z.mul_nonneg_nonneg; lia|]. apply Z.mul_le_mono_nonneg; lia. }
  pose proof (M al bl Hal Hbl) as P1. pose proof (M ah bl Hah Hbl) as P2.
  pose proof (M al bh Hal Hbh) as P3. pose proof (M ah bh Hah Hbh) as P4.
  unfold u64. rewrite (Z.mod_small (al * bl)), (Z.mod_small (ah * bl)), (Z.mod_small (al * bh)), (Z.mod_small (ah * bh)) by lia.
  replace ((ah * 2 ^ 32 + al) * (bh * 2 ^ 32 + bl)) with (ah * bh * 2 ^ 64 + (ah * bl + al * bh) * 2 ^ 32 + al * bl) by ring.
  set (ll := al * bl) in *. set (lh := ah * bl) in *. set (hl := al * bh) in *. set (hh := ah * bh) in *.
  assert (Hsum : 0 <= hh * 2 ^ 64 + (lh + hl) * 2 ^ 32 + ll < 2 ^ 128).
  { assert (E : hh * 2 ^ 64 + (lh + hl) * 2 ^ 32 + ll = (ah * 2 ^ 32 + al) * (bh * 2 ^ 32 + bl)) by (unfold hh, lh, hl, ll; ring).
    rewrite E. split; [apply Z.mul_nonneg_nonneg; lia|].
    change (2 ^ 128) with (2 ^ 64 * 2 ^ 64). apply Z.mul_lt_mono_nonneg; lia. }
  clearbody ll lh hl hh.
  pose proof (add_first_exact ll ((lh * 2 ^ 32) mod 2 ^ 64) ltac:(lia) ltac:(lia)) as Q1. unfold u64 in Q1.
  destruct (add64carry_first ll ((lh * 2 ^ 32) mod 2 ^ 64)) as [c1 l1]. destruct Q1 as (Q1 & Hl1 & Hc1).
  pose proof (add_first_exact l1 ((hl * 2 ^ 32) mod 2 ^ 64) ltac:(lia) ltac:(lia)) as Q2. unfold u64 in Q2.
  destruct (add64carry_first l1 ((hl * 2 ^ 32) mod 2 ^ 64)) as [c2 l2]. destruct Q2 as (Q2 & Hl2 & Hc2).
  unfold add64carry_last, u64. lia.
Qed.

(** ** Leading zeros *)
Lemma smear_step k w v : 0 <= w -> 0 <= v ->
  (forall i, k - w < i <= k -> 0 <= i -> Z.testbit v i = true) -> (forall i, k < i -> Z.testbit v i = false) ->
  0 <= smear w v /\
  (forall i, k - 2 * w < i <= k -> 0 <= i -> Z.testbit (smear w v) i = true) /\
  (forall i, k < i -> Z.testbit (smear w v) i = false).
Proof.
  intros Hw Hv H1 H2. unfold smear. split; [apply Z.lor_nonneg; split; [|apply Z.shiftr_nonneg]; lia|]. split.
  - intros i Hi H0. rewrite Z.lor_spec, Z.shiftr_spec by lia.
    destruct (Z_lt_ge_dec (k - w) i) as [L|G].
    + rewrite H1 by lia. reflexivity.
    + rewrite (H1 (i + w)) by lia. apply Bool.orb_true_r.
  - intros i Hi. destruct (Z_lt_ge_dec i 0) as [N|P]; [rewrite Z.testbit_neg_r by lia; reflexivity|].
    rewrite Z.lor_spec, Z.shiftr_spec, !H2 by lia. reflexivity.
Qed.
Lemma top_bit v : 0 < v -> 0 <= Z.log2 v /\ Z.testbit v (Z.log2 v) = true /\ forall i, Z.log2 v < i -> Z.testbit v i = false.
Proof.
  intros H. split; [apply Z.log2_nonneg|]. split; [apply Z.bit_log2; lia|]. intros. apply Z.bits_above_log2; lia.
Qed.
Lemma all_ones k v : 0 <= k -> 0 <= v -> (forall i, 0 <= i <= k -> Z.testbit v i = true) ->
  (forall i, k < i -> Z.testbit v i = false) -> v = 2 ^ (k + 1) - 1.
Proof.
  intros Hk Hv H1 H2. transitivity (Z.ones (k + 1)); [|rewrite Z.ones_equiv; lia].
  apply Z.bits_inj'. intros i Hi. destruct (Z_le_gt_dec i k).
  - rewrite H1, Z.ones_spec_low by lia. reflexivity.
  - rewrite H2, Z.ones_spec_high by lia. reflexivity.
Qed.
Lemma smear32 v : 0 < v < 2 ^ 32 ->
  smear 16 (smear 8 (smear 4 (smear 2 (smear 1 v)))) = 2 ^ (Z.log2 v + 1) - 1.
Proof.
  intros H. destruct (top_bit v ltac:(lia)) as (T0 & T1 & T2). set (k := Z.log2 v) in *.
  assert (k < 32) by (apply Z.log2_lt_pow2; lia).
  destruct (smear_step k 1 v) as (A1 & B1 & C1); [lia|lia| |exact T2|].
  { intros i Hi _. replace i with k by lia. exact T1. }
  destruct (smear_step k 2 _ ltac:(lia) A1 B1 C1) as (A2 & B2 & C2).
  destruct (smear_step k 4 _ ltac:(lia) A2 B2 C2) as (A3 & B3 & C3).
  destruct (smear_step k 8 _ ltac:(lia) A3 B3 C3) as (A4 & B4 & C4).
  destruct (smear_step k 16 _ ltac:(lia) A4 B4 C4) as (A5 & B5 & C5).
  apply all_ones; auto. intros i Hi. apply B5; lia.
Qed.
Lemma smear64 v : 0 < v < 2 ^ 64 ->
  smear 32 (smear 16 (smear 8 (smear 4 (smear 2 (smear 1 v))))) = 2 ^ (Z.log2 v + 1) - 1.
Proof.
  intros H. destruct (top_bit v ltac:(lia)) as (T0 & T1 & T2). set (k := Z.log2 v) in *.
  assert (k < 64) by (apply Z.log2_lt_pow2; lia).
  destruct (smear_step k 1 v) as (A1 & B1 & C1); [lia|lia| |exact T2|].
  { intros i Hi _. replace i with k by lia. exact T1. }
  destruct (smear_step k 2 _ ltac:(lia) A1 B1 C1) as (A2 & B2 & C2).
  destruct (smear_step k 4 _ ltac:(lia) A2 B2 C2) as (A3 & B3 & C3).
  destruct (smear_step k 8 _ ltac:(lia) A3 B3 C3) as (A4 & B4 & C4).
  destruct (smear_step k 16 _ ltac:(lia) A4 B4 C4) as (A5 & B5 & C5).
  destruct (smear_step k 32 _ ltac:(lia) A5 B5 C5) as (A6 & B6 & C6).
  apply all_ones; auto. intros i Hi. apply B6; lia.
Qed.
Lemma clz32_exact v : 0 < v < 2 ^ 32 -> fallback_clz32 v = 31 - Z.log2 v.
Proof.
  intros H. unfold fallback_clz32. rewrite smear32 by assumption.
  assert (K : 0 <= Z.log2 v < Z.of_nat 32) by (split; [apply Z.log2_nonneg|apply Z.log2_lt_pow2; lia]).
  generalize dependent (Z.log2 v). intros k K.
  apply Z.eqb_eq. revert k K. apply all_below_spec. vm_compute. reflexivity.
Qed.
Lemma clz64_exact v : 0 < v < 2 ^ 64 -> fallback_clz64 v = 63 - Z.log2 v.
Proof.
  intros H. unfold fallback_clz64. rewrite smear64 by assumption.
  assert (K : 0 <= Z.log2 v < Z.of_nat 64) by (split; [apply Z.log2_nonneg|apply Z.log2_lt_pow2; lia]).
  generalize dependent (Z.log2 v). intros k K.
  apply Z.eqb_eq. revert k K. apply all_below_spec. vm_compute. reflexivity.
Qed.
Lemma clz64_arch32_exact v : 0 < v < 2 ^ 64 -> fallback_clz64_arch32 v = 63 - Z.log2 v.
Proof.
  intros H. unfold fallback_clz64_arch32, u32. rewrite Z.shiftr_div_pow2 by lia.
  rewrite (Z.mod_small (v / 2 ^ 32)) by lia.
  destruct (v / 2 ^ 32 =? 0) eqn:E.
  - rewrite Z.mod_small by lia. rewrite clz32_exact by lia. lia.
  - rewrite clz32_exact by lia. rewrite <- (Z.shiftr_div_pow2 v 32) by lia.
    rewrite Z.log2_shiftr by lia.
    assert (32 <= Z.log2 v) by (apply Z.log2_le_pow2; lia). lia.
Qed.

(** ** Byte swapping *)
Definition byte_of (v i : Z) : Z := Z.land (Z.shiftr v (8 * i)) 255.

Lemma below_cases n (P : Z -> Prop) : Forall P (map Z.of_nat (seq 0 n)) -> forall i, 0 <= i < Z.of_nat n -> P i.
Proof.
  intros F i H. rewrite Forall_forall in F. apply F. apply in_map_iff. exists (Z.to_nat i). split; [lia|].
  apply in_seq. lia.
Qed.
Ltac bit_cases :=
  match goal with |- Forall _ (map Z.of_nat (seq 0 ?n)) =>
    let l := eval vm_compute in (map Z.of_nat (seq 0 n)) in change (map Z.of_nat (seq 0 n)) with l end;
  repeat (apply Forall_cons; [|]); try apply Forall_nil.
Lemma bit_high v n i : 0 <= v < 2 ^ n -> n <= i -> 0 <= n -> Z.testbit v i = false.
Proof. intros H Hi Hn. rewrite <- (Z.mod_small v (2 ^ n)) by lia. apply Z.mod_pow2_bits_high. lia. Qed.

Ltac swap_bits :=
  repeat first [rewrite Z.lor_spec | rewrite Z.land_spec | rewrite Z.mod_pow2_bits_low by lia];
  rewrite ?Z.shiftr_spec, ?Z.shiftl_spec by lia;
  repeat match goal with |- context [Z.testbit ?c ?i] =>
    match c with Z.pos _ => idtac end;
    let b := eval vm_compute in (Z.testbit c i) in change (Z.testbit c i) with b end;
  repeat match goal with |- context [Z.testbit ?v (?a - ?b)] =>
    let z := eval vm_compute in (a - b) in change (Z.testbit v (a - b)) with (Z.testbit v z) end;
  repeat match goal with |- context [Z.testbit ?v (?a + ?b)] =>
    let z := eval vm_compute in (a + b) in change (Z.testbit v (a + b)) with (Z.testbit v z) end.

Ltac clean_bits v n Hv :=
  rewrite ?Bool.andb_false_r, ?Bool.andb_true_r;
  repeat match goal with
  | |- context [Z.testbit v (Z.neg ?p)] => rewrite (Z.testbit_neg_r v (Z.neg p)) by lia
  | |- context [Z.testbit v (Z.pos ?p)] => rewrite (bit_high v n (Z.pos p) Hv) by lia
  end;
  rewrite ?Bool.orb_false_r, ?Bool.orb_false_l.

Lemma bswap64_bits v : 0 <= v < 2 ^ 64 -> forall i, 0 <= i < Z.of_nat 64 ->
  Z.testbit (bswap64 v) i = Z.testbit v (8 * (7 - i / 8) + i mod 8).
Proof.
  intros Hv. apply below_cases. bit_cases; unfold bswap64, u64; cbv beta; swap_bits;
    match goal with |- _ = Z.testbit v ?e => let z := eval vm_compute in e in change e with z end;
    clean_bits v 64 Hv; reflexivity.
Qed.
Lemma bswap32_bits v : 0 <= v < 2 ^ 32 -> forall i, 0 <= i < Z.of_nat 32 ->
  Z.testbit (bswap32 v) i = Z.testbit v (8 * (3 - i / 8) + i mod 8).
Proof.
  intros Hv. apply below_cases. bit_cases; unfold bswap32, u32; cbv beta; swap_bits;
    match goal with |- _ = Z.testbit v ?e => let z := eval vm_compute in e in change e with z end;
    clean_bits v 32 Hv; reflexivity.
Qed.
Lemma bswap16_bits v : 0 <= v < 2 ^ 16 -> forall i, 0 <= i < Z.of_nat 16 ->
  Z.testbit (bswap16 v) i = Z.testbit v (8 * (1 - i / 8) + i mod 8).
Proof.
  intros Hv. apply below_cases. bit_cases; unfold bswap16, u16; cbv beta; swap_bits;
    match goal with |- _ = Z.testbit v ?e => let z := eval vm_compute in e in change e with z end;
    clean_bits v 16 Hv; reflexivity.
Qed.
Lemma land_bound_l a b k : 0 <= k -> 0 <= a < 2 ^ k -> 0 <= b -> 0 <= Z.land a b < 2 ^ k.
Proof. intros. pose proof (land_bound_r b a). rewrite Z.land_comm. lia. Qed.
Lemma bswap64_range v : 0 <= v < 2 ^ 64 -> 0 <= bswap64 v < 2 ^ 64.
Proof.
  intros Hv. unfold bswap64, u64. rewrite !Z.shiftr_div_pow2 by lia.
  repeat apply lor_bound; try lia; try (apply land_bound_l; lia).
Qed.
Lemma bswap32_range v : 0 <= v < 2 ^ 32 -> 0 <= bswap32 v < 2 ^ 32.
Proof.
  intros Hv. unfold bswap32, u32. rewrite !Z.shiftr_div_pow2 by lia.
  repeat apply lor_bound; try lia; try (apply land_bound_l; lia).
Qed.
Lemma bswap16_range v : 0 <= v < 2 ^ 16 -> 0 <= bswap16 v < 2 ^ 16.
Proof. intros Hv. unfold bswap16, u16. lia. Qed.

Lemma byte_bits v i j : 0 <= i -> 0 <= j -> Z.testbit (byte_of v i) j = (j <? 8) && Z.testbit v (8 * i + j).
Proof.
  intros Hi Hj. unfold byte_of. rewrite Z.land_spec, Z.shiftr_spec by lia.
  change 255 with (Z.ones 8). rewrite Z.testbit_ones_nonneg by lia.
  rewrite Bool.andb_comm, (Z.add_comm j). reflexivity.
Qed.
Lemma byte_swap (f : Z -> Z) n v : (forall i, 0 <= i < 8 * n -> Z.testbit (f v) i = Z.testbit v (8 * (n - 1 - i / 8) + i mod 8)) ->
  forall i, 0 <= i < n -> byte_of (f v) i = byte_of v (n - 1 - i).
Proof.
  intros H i Hi. apply Z.bits_inj'. intros j Hj. rewrite !byte_bits by lia.
  destruct (j <? 8) eqn:E; [|reflexivity]. cbn [andb]. rewrite H by lia. f_equal. lia.
Qed.
Lemma swap_twice (f : Z -> Z) n v : 0 <= n -> 0 <= v < 2 ^ (8 * n) -> 0 <= f v < 2 ^ (8 * n) -> 0 <= f (f v) < 2 ^ (8 * n) ->
  (forall w, 0 <= w < 2 ^ (8 * n) -> forall i, 0 <= i < 8 * n -> Z.testbit (f w) i = Z.testbit w (8 * (n - 1 - i / 8) + i mod 8)) ->
  f (f v) = v.
Proof.
  intros Hn Hv H1 H2 H. apply Z.bits_inj'. intros i Hi. destruct (Z_lt_ge_dec i (8 * n)) as [L|G].
  - rewrite H by lia. rewrite H by lia. f_equal. lia.
  - rewrite (bit_high v (8 * n) i), (bit_high (f (f v)) (8 * n) i); auto; lia.
Qed.

(** ** Decimal digits *)
Definition put_all (m : cmem) (p : Z) (l : list Z) : cmem :=
  fun x => if (p <=? x) && (x <? p + Z.of_nat (length l)) then nth (Z.to_nat (x - p)) l 0 else m x.
(** value of a string of decimal digits *)
Fixpoint decimal (acc : Z) (l : list Z) : Z :=
  match l with [] => acc | c :: l => decimal (10 * acc + (c - 48)) l end.
Definition is_digit (c : Z) : bool := (48 <=? c) && (c <=? 57).
(** canonical decimal text of a number *)
Definition canonical (u : Z) (l : list Z) : Prop :=
  l <> [] /\ Forall (fun c => 48 <= c <= 57) l /\ decimal 0 l = u /\ ((length l > 1)%nat -> hd 0 l <> 48).

Definition memq (m m' : cmem) : Prop := forall x, m x = m' x.
Lemma put_all_nil m p : memq (put_all m p []) m.
Proof. intros x. unfold put_all. cbn [length]. replace (_ && _) with false by lia. reflexivity. Qed.
Lemma put_all_app m p l1 l2 : memq (put_all (put_all m p l1) (p + Z.of_nat (length l1)) l2) (put_all m p (l1 ++ l2)).
Proof.
  intros x. unfold put_all. rewrite app_length.
  destruct ((p + Z.of_nat (length l1) <=? x) && (x <? p + Z.of_nat (length l1) + Z.of_nat (length l2))) eqn:E.
  - replace ((p <=? x) && (x <? p + Z.of_nat (length l1 + length l2))) with true by lia.
    rewrite app_nth2 by lia. f_equal. lia.
  - destruct ((p <=? x) && (x <? p + Z.of_nat (length l1))) eqn:E2.
    + replace ((p <=? x) && (x <? p + Z.of_nat (length l1 + length l2))) with true by lia.
      rewrite app_nth1 by lia. reflexivity.
    + replace ((p <=? x) && (x <? p + Z.of_nat (length l1 + length l2))) with false by lia. reflexivity.
Qed.
Lemma put_all_ext m m' p l : memq m m' -> memq (put_all m p l) (put_all m' p l).
Proof. intros H x. unfold put_all. destruct (_ && _); auto. Qed.
Lemma memq_trans m1 m2 m3 : memq m1 m2 -> memq m2 m3 -> memq m1 m3.
Proof. intros H1 H2 x. rewrite H1. apply H2. Qed.

(** a writer that appends the string [l] *)
Definition emits (r : Z * cmem) (p : Z) (m : cmem) (l : list Z) : Prop :=
  fst r = p + Z.of_nat (length l) /\ memq (snd r) (put_all m p l).

Definition dec2s (v : Z) (force : bool) : list Z :=
  (if force || (v >? 9) then [dig (2 * v)] else []) ++ [dig (2 * v + 1)].
Definition dec4s (v : Z) (force : bool) : list Z :=
  let hi := v / 100 in let lo := v mod 100 in
  (if force || (v >? 999) then [dig (2 * hi)] else []) ++
  (if force || (v >? 99) then [dig (2 * hi + 1)] else []) ++
  (if force || (v >? 9) then [dig (2 * lo)] else []) ++ [dig (2 * lo + 1)].
Definition dec3s (v : Z) (force : bool) : list Z :=
  let hi := v / 10 in let lo := v mod 10 in
  (if force || (v >? 99) then [dig (2 * hi)] else []) ++
  (if force || (v >? 9) then [dig (2 * hi + 1)] else []) ++ [lo + 48].

Ltac split_put x p :=
  let d := fresh "d" in
  remember (x - p) as d eqn:Ed; assert (x = p + d) by lia; subst x.
Lemma nth_cases (a b c d : Z) (i : Z) :
  nth (Z.to_nat i) [a; b; c; d] 0 =
  if i <=? 0 then a else if i =? 1 then b else if i =? 2 then c else if i =? 3 then d else 0.
Proof.
  destruct (i <=? 0) eqn:E0; [replace (Z.to_nat i) with 0%nat by lia; reflexivity|].
  destruct (i =? 1) eqn:E1; [replace (Z.to_nat i) with 1%nat by lia; reflexivity|].
  destruct (i =? 2) eqn:E2; [replace (Z.to_nat i) with 2%nat by lia; reflexivity|].
  destruct (i =? 3) eqn:E3; [replace (Z.to_nat i) with 3%nat by lia; reflexivity|].
  apply nth_overflow. cbn. lia.
Qed.
Lemma nth_pad (l : list Z) n : nth n l 0 = nth n (l ++ [0]) 0.
Proof.
  destruct (Nat.ltb_spec n (length l)) as [L|G]; [rewrite app_nth1 by lia; reflexivity|].
  rewrite nth_overflow by lia. rewrite app_nth2 by lia. destruct (n - length l)%nat as [|[|]]; reflexivity.
Qed.
Ltac finish_put :=
  split; [cbn [fst length app]; unfold Z.b2z; lia|];
  intros x; cbn [snd]; unfold put, put_all; cbn [length app Z.b2z];
  rewrite ?(nth_pad [_; _; _]), ?(nth_pad [_; _]), ?(nth_pad [_]); cbn [app];
  rewrite ?(nth_pad [_; _; _]), ?(nth_pad [_; _]); cbn [app];
  rewrite ?(nth_pad [_; _; _]); cbn [app];
  rewrite nth_cases;
  repeat match goal with |- context [?a =? ?b] => destruct (a =? b) eqn:? end;
  repeat match goal with |- context [?a <=? ?b] => destruct (a <=? b) eqn:? end;
  repeat match goal with |- context [?a <? ?b] => destruct (a <? b) eqn:? end;
  cbn [andb]; try reflexivity; try lia.
Lemma dec2_emits v p f m : emits (dec2 v p f m) p m (dec2s v f).
Proof.
  unfold emits, dec2, dec2s. rewrite !Z.shiftl_mul_pow2 by lia. change (2 ^ 1) with 2. rewrite (Z.mul_comm v 2).
  destruct (f || (v >? 9)); finish_put.
Qed.
Lemma dec4_emits v p f m : (0 <= v < 10000) -> emits (dec4 v p f m) p m (dec4s v f).
Proof.
  intros Hv. unfold emits, dec4, dec4s. rewrite !Z.shiftl_mul_pow2 by lia. change (2 ^ 1) with 2.
  rewrite (Z.mul_comm (v / 100) 2), (Z.mul_comm (v mod 100) 2).
  destruct (f || (v >? 999)) eqn:E1; destruct (f || (v >? 99)) eqn:E2; destruct (f || (v >? 9)) eqn:E3;
    try (exfalso; destruct f; cbn [orb] in *; lia); clear Hv E1 E2 E3; finish_put.
Qed.
Lemma dec3_emits v p f m : (0 <= v < 1000) -> emits (dec3 v p f m) p m (dec3s v f).
Proof.
  intros Hv. unfold emits, dec3, dec3s. rewrite !Z.shiftl_mul_pow2 by lia. change (2 ^ 1) with 2.
  rewrite (Z.mul_comm (v / 10) 2).
  destruct (f || (v >? 99)) eqn:E1; destruct (f || (v >? 9)) eqn:E3;
    try (exfalso; destruct f; cbn [orb] in *; lia); generalize (v mod 10 + 48) as y; clear Hv E1 E3; intros y; finish_put.
Qed.

Lemma emits_then r p m l1 (f : Z -> cmem -> Z * cmem) l2 : emits r p m l1 ->
  (forall p' m', emits (f p' m') p' m' l2) -> emits (f (fst r) (snd r)) p m (l1 ++ l2).
Proof.
  intros [E1 E2] H. destruct (H (fst r) (snd r)) as [F1 F2]. split.
  - rewrite F1, E1, app_length. lia.
  - eapply memq_trans; [exact F2|]. rewrite E1. eapply memq_trans; [|apply put_all_app]. apply put_all_ext. exact E2.
Qed.

(** properties of the four-digit groups, by enumeration *)
Definition group_ok (v : Z) : bool :=
  forallb is_digit (dec4s v true) && (decimal 0 (dec4s v true) =? v) && Nat.eqb (length (dec4s v true)) 4 &&
  forallb is_digit (dec4s v false) && (decimal 0 (dec4s v false) =? v) &&
  (Nat.eqb (length (dec4s v false)) 1 || negb (hd 0 (dec4s v false) =? 48)) &&
  Nat.leb (length (dec4s v false)) 4 && Nat.leb 1 (length (dec4s v false)) &&
  ((v =? 0) || negb (hd 0 (dec4s v false) =? 48)).
Definition pair_ok (v : Z) : bool :=
  forallb is_digit (dec2s v false) && (decimal 0 (dec2s v false) =? v) &&
  ((v =? 0) || negb (hd 0 (dec2s v false) =? 48)) && Nat.leb (length (dec2s v false)) 2 && Nat.leb 1 (length (dec2s v false)).
Lemma groups : forall v, 0 <= v < 10000 -> group_ok v = true.
Proof.
  assert (H : all_below (Z.to_nat 10000) group_ok = true) by (vm_compute; reflexivity).
  intros v Hv. apply (all_below_spec _ _ H). lia.
Qed.
Lemma pairs : forall v, 0 <= v < 100 -> pair_ok v = true.
Proof.
  assert (H : all_below (Z.to_nat 100) pair_ok = true) by (vm_compute; reflexivity).
  intros v Hv. apply (all_below_spec _ _ H). lia.
Qed.

Lemma decimal_app l1 l2 : forall a, decimal a (l1 ++ l2) = decimal (decimal a l1) l2.
Proof. induction l1 as [|c l1 IH]; intros a; [reflexivity|]. cbn [app decimal]. apply IH. Qed.
Lemma decimal_acc l : forall a, decimal a l = a * 10 ^ Z.of_nat (length l) + decimal 0 l.
Proof.
  induction l as [|c l IH]; intros a; [cbn; lia|]. cbn [decimal length].
  rewrite IH, (IH (10 * 0 + (c - 48))). rewrite Nat2Z.inj_succ, Z.pow_succ_r by lia. ring.
Qed.
Lemma digits_forall l : forallb is_digit l = true -> Forall (fun c => 48 <= c <= 57) l.
Proof. intros H. rewrite forallb_forall in H. apply Forall_forall. intros c Hc. specialize (H c Hc). unfold is_digit in H. lia. Qed.

(** a canonical number followed by a full group *)
Lemma canonical_group u l v : 0 < u -> canonical u l -> 0 <= v < 10000 ->
  canonical (u * 10000 + v) (l ++ dec4s v true).
Proof.
  intros Hu (N & D & E & L) Hv. pose proof (groups v Hv) as G. unfold group_ok in G.
  rewrite !Bool.andb_true_iff in G; repeat match type of G with _ /\ _ => destruct G as [G ?] end.
  split; [destruct l; [congruence|discriminate]|]. split.
  { apply Forall_app. split; [exact D|apply digits_forall; assumption]. }
  split.
  - rewrite decimal_app, decimal_acc, E. replace (length (dec4s v true)) with 4%nat by lia.
    change (10 ^ Z.of_nat 4) with 10000. lia.
  - intros _. destruct l as [|c l]; [congruence|]. cbn [app hd].
    destruct l as [|c2 l]; [|apply L; cbn; lia]. cbn [decimal] in E. lia.
Qed.
Lemma canonical_first v : 0 <= v < 10000 -> canonical v (dec4s v false) /\ (length (dec4s v false) <= 4)%nat.
Proof.
  intros Hv. pose proof (groups v Hv) as G. unfold group_ok in G.
  rewrite !Bool.andb_true_iff in G; repeat match type of G with _ /\ _ => destruct G as [G ?] end. split; [|lia].
  split; [destruct (dec4s v false); [cbn in *; lia|discriminate]|]. split; [apply digits_forall; assumption|].
  split; [lia|]. intros. lia.
Qed.
Lemma canonical_pair v : 0 < v < 100 -> canonical v (dec2s v false) /\ (length (dec2s v false) <= 2)%nat.
Proof.
  intros Hv. pose proof (pairs v ltac:(lia)) as G. unfold pair_ok in G.
  rewrite !Bool.andb_true_iff in G; repeat match type of G with _ /\ _ => destruct G as [G ?] end. split; [|lia].
  split; [destruct (dec2s v false); [cbn in *; lia|discriminate]|]. split; [apply digits_forall; assumption|].
  split; [lia|]. intros. lia.
Qed.
Lemma group_len v : 0 <= v < 10000 -> length (dec4s v true) = 4%nat.
Proof.
  intros Hv. pose proof (groups v Hv) as G. unfold group_ok in G.
  rewrite !Bool.andb_true_iff in G; repeat match type of G with _ /\ _ => destruct G as [G ?] end. lia.
Qed.

(** a canonical text is no longer than it must be *)
Lemma canonical_length u l k : canonical u l -> u < 10 ^ Z.of_nat k -> (1 <= k)%nat -> (length l <= k)%nat.
Proof.
  intros (N & D & E & L) Hu Hk. destruct l as [|c l]; [congruence|]. destruct l as [|c2 l]; [cbn; lia|].
  specialize (L ltac:(cbn; lia)). cbn [hd] in L. inversion D as [|? ? Hc D']; subst.
  cbn [decimal] in Hu. change (decimal (10 * (10 * 0 + (c - 48)) + (c2 - 48)) l) with (decimal (10 * 0 + (c - 48)) (c2 :: l)) in Hu.
  rewrite decimal_acc in Hu.
  assert (P : forall l, Forall (fun c => 48 <= c <= 57) l -> 0 <= decimal 0 l).
  { clear. intros l. assert (Q : forall a, 0 <= a -> Forall (fun c => 48 <= c <= 57) l -> 0 <= decimal a l).
    { induction l as [|c l IH]; intros a Ha F; [exact Ha|]. inversion F; subst. cbn [decimal]. apply IH; auto. lia. }
    apply Q. lia. }
  specialize (P _ D').
  destruct (Nat.leb_spec (length (c :: c2 :: l)) k) as [Y|Y]; [exact Y|exfalso].
  assert (10 ^ Z.of_nat k <= 10 ^ Z.of_nat (length (c2 :: l))) by (apply Z.pow_le_mono_r; cbn [length] in *; lia).
  assert (0 < 10 ^ Z.of_nat (length (c2 :: l))) by (apply Z.pow_pos_nonneg; lia).
  assert (1 * 10 ^ Z.of_nat (length (c2 :: l)) <= (10 * 0 + (c - 48)) * 10 ^ Z.of_nat (length (c2 :: l)))
    by (apply Z.mul_le_mono_nonneg_r; lia).
  lia.
Qed.

Lemma u2a32_ok u p m : 0 <= u < 2 ^ 32 ->
  exists l, emits (u2a32 u p m) p m l /\ canonical u l /\ (length l <= 10)%nat.
Proof.
  intros Hu. unfold u2a32. change (10 ^ 4) with 10000. change (10 ^ 8) with 100000000.
  destruct (u <? 10000) eqn:E1.
  - exists (dec4s u false). destruct (canonical_first u ltac:(lia)) as [C L].
    split; [apply dec4_emits; lia|]. split; [exact C|lia].
  - destruct (u >=? 100000000) eqn:E2.
    + set (a := u / 100000000). set (b := u mod 100000000 / 10000). set (c := (u mod 100000000) mod 10000).
      assert (R : u = (a * 10000 + b) * 10000 + c /\ 0 < a < 100 /\ 0 <= b < 10000 /\ 0 <= c < 10000) by (unfold a, b, c; lia).
      destruct R as (R & Ha & Hb & Hc). destruct (canonical_pair a Ha) as [C L].
      exists ((dec2s a false ++ dec4s b true) ++ dec4s c true).
      pose proof (dec2_emits a p false m) as M1. destruct (dec2 a p false m) as [p1 m1].
      pose proof (emits_then _ _ _ _ (fun p m => dec4 b p true m) _ M1 (fun p' m' => dec4_emits b p' true m' Hb)) as M2.
      cbn [fst snd] in M2. destruct (dec4 b p1 true m1) as [p2 m2].
      pose proof (emits_then _ _ _ _ (fun p m => dec4 c p true m) _ M2 (fun p' m' => dec4_emits c p' true m' Hc)) as M3.
      cbn [fst snd] in M3. split; [exact M3|]. split.
      * rewrite R. apply canonical_group; [lia| |lia]. apply canonical_group; auto; lia.
      * rewrite !app_length, !group_len by lia. lia.
    + set (b := u / 10000). set (c := u mod 10000).
      assert (R : u = b * 10000 + c /\ 0 < b < 10000 /\ 0 <= c < 10000) by (unfold b, c; lia).
      destruct R as (R & Hb & Hc). destruct (canonical_first b ltac:(lia)) as [C L].
      exists (dec4s b false ++ dec4s c true).
      pose proof (dec4_emits b p false m ltac:(lia)) as M1. destruct (dec4 b p false m) as [p1 m1].
      pose proof (emits_then _ _ _ _ (fun p m => dec4 c p true m) _ M1 (fun p' m' => dec4_emits c p' true m' Hc)) as M2.
      cbn [fst snd] in M2. split; [exact M2|]. split.
      * rewrite R. apply canonical_group; auto; lia.
      * rewrite !app_length, !group_len by lia. lia.
Qed.

Lemma u2a64_ok u p m : 0 <= u < 2 ^ 64 ->
  exists l, emits (u2a64 u p m) p m l /\ canonical u l /\ (length l <= 20)%nat.
Proof.
  intros Hu. unfold u2a64. destruct (u =? u32 u) eqn:E0.
  { replace (u32 u) with u by lia. destruct (u2a32_ok u p m) as (l & A & B & C); [unfold u32 in E0; lia|].
    exists l. split; [exact A|]. split; [exact B|lia]. }
  assert (Hbig : 2 ^ 32 <= u) by (unfold u32 in E0; lia). clear E0.
  change (10 ^ 12) with 1000000000000. change (10 ^ 8) with 100000000. change (10 ^ 16) with 10000000000000000.
  (* the last two groups *)
  assert (Fin : forall w q p1 m1 l, 0 <= w < 100000000 -> 0 < q -> emits (p1, m1) p m l -> canonical q l ->
    exists l', emits (let '(p, m) := dec4 (u32 w / 10000) p1 true m1 in dec4 (u32 w mod 10000) p true m) p m l' /\
               canonical (q * 100000000 + w) l' /\ length l' = (length l + 8)%nat).
  { intros w q p1 m1 l Hw Hq M C. unfold u32. rewrite !(Z.mod_small w (2 ^ 32)) by lia.
    set (b := w / 10000). set (c := w mod 10000).
    assert (R : w = b * 10000 + c /\ 0 <= b < 10000 /\ 0 <= c < 10000) by (unfold b, c; lia).
    destruct R as (R & Hb & Hc). exists ((l ++ dec4s b true) ++ dec4s c true).
    pose proof (emits_then _ _ _ _ (fun p m => dec4 b p true m) _ M (fun p' m' => dec4_emits b p' true m' Hb)) as M2.
    cbn [fst snd] in M2. destruct (dec4 b p1 true m1) as [p2 m2].
    pose proof (emits_then _ _ _ _ (fun p m => dec4 c p true m) _ M2 (fun p' m' => dec4_emits c p' true m' Hc)) as M3.
    cbn [fst snd] in M3. split; [exact M3|]. split.
    - replace (q * 100000000 + w) with ((q * 10000 + b) * 10000 + c) by lia.
      apply canonical_group; [lia| |lia]. apply canonical_group; auto; lia.
    - rewrite !app_length, !group_len by lia. lia. }
  destruct (u >=? 1000000000000) eqn:E1.
  - (* three or two leading groups *)
    assert (Mid : forall w q force p1 m1 l, 0 <= w < 10000000000000000 ->
      emits (p1, m1) p m l ->
      (force = true /\ 0 < q /\ canonical q l \/ force = false /\ q = 0 /\ l = [] /\ 1000000000000 <= w) ->
      exists l', emits (
        let '(u', (p', m')) :=
          let '(p2, m2) := dec4 (u32 (w / 1000000000000)) p1 force m1 in
          let u'0 := w mod 1000000000000 in
          let '(p3, m3) := dec4 (u32 (u'0 / 100000000)) p2 true m2 in
          (u'0 mod 100000000, (p3, m3)) in
        let '(p4, m4) := dec4 (u32 u' / 10000) p' true m' in dec4 (u32 u' mod 10000) p4 true m4) p m l' /\
        canonical (q * 10000000000000000 + w) l' /\ (length l' <= length l + 16)%nat).
    { intros w q force p1 m1 l Hw M Cs. unfold u32.
      rewrite (Z.mod_small (w / 1000000000000) (2 ^ 32)) by lia. cbv zeta.
      rewrite (Z.mod_small (w mod 1000000000000 / 100000000) (2 ^ 32)) by lia.
      set (b := w / 1000000000000). set (c := w mod 1000000000000 / 100000000).
      set (r := (w mod 1000000000000) mod 100000000).
      assert (R : w = (b * 10000 + c) * 100000000 + r /\ 0 <= b < 10000 /\ 0 <= c < 10000 /\ 0 <= r < 100000000)
        by (unfold b, c, r; lia).
      destruct R as (R & Hb & Hc & Hr).
      assert (M2 : emits (dec4 b p1 force m1) p m (l ++ dec4s b force)).
      { pose proof (emits_then _ _ _ _ (fun p m => dec4 b p force m) _ M (fun p' m' => dec4_emits b p' force m' Hb)) as M2.
        cbn [fst snd] in M2. exact M2. }
      assert (C2 : canonical (q * 10000 + b) (l ++ dec4s b force) /\ 0 < q * 10000 + b /\ (length (l ++ dec4s b force) <= length l + 4)%nat).
      { destruct Cs as [(-> & Hq & C)|(-> & -> & -> & Hw2)].
        - split; [apply canonical_group; auto|]. split; [lia|]. rewrite app_length, group_len by lia. lia.
        - cbn [app]. destruct (canonical_first b Hb) as [C L]. split; [exact C|]. split; [unfold b in *; lia|exact L]. }
      destruct C2 as (C2 & Hpos & L2). destruct (dec4 b p1 force m1) as [p2 m2].
      assert (M3 : emits (dec4 c p2 true m2) p m ((l ++ dec4s b force) ++ dec4s c true)).
      { pose proof (emits_then _ _ _ _ (fun p m => dec4 c p true m) _ M2 (fun p' m' => dec4_emits c p' true m' Hc)) as M3.
        cbn [fst snd] in M3. exact M3. }
      pose proof (canonical_group _ _ c Hpos C2 Hc) as C3.
      destruct (dec4 c p2 true m2) as [p3 m3].
      destruct (Fin r ((q * 10000 + b) * 10000 + c) p3 m3 _ Hr ltac:(lia) M3 C3) as (l' & A & B & D).
      unfold u32 in A. exists l'. split; [exact A|]. split.
      - replace (q * 10000000000000000 + w) with (((q * 10000 + b) * 10000 + c) * 100000000 + r) by lia. exact B.
      - rewrite D, app_length, group_len by lia. lia. }
    destruct (u >=? 10000000000000000) eqn:E2.
    + unfold u32 at 1. rewrite (Z.mod_small (u / 10000000000000000)) by lia.
      assert (Hq : 0 <= u / 10000000000000000 < 10000) by lia.
      pose proof (dec4_emits _ p false m Hq) as M1. destruct (canonical_first _ Hq) as [C1 L1].
      destruct (dec4 (u / 10000000000000000) p false m) as [p1 m1].
      destruct (Mid (u mod 10000000000000000) (u / 10000000000000000) true p1 m1 _ ltac:(lia) M1) as (l' & A & B & D).
      { left. split; [reflexivity|]. split; [lia|exact C1]. }
      exists l'. split; [exact A|]. split; [|lia].
      replace u with (u / 10000000000000000 * 10000000000000000 + u mod 10000000000000000) by lia. exact B.
    + destruct (Mid u 0 false p m [] ltac:(lia)) as (l' & A & B & D).
      { split; [cbn; lia|]. cbn [snd]. intros x. symmetry. apply put_all_nil. }
      { right. repeat split; lia. }
      exists l'. split; [exact A|]. split; [exact B|cbn in D; lia].
  - unfold u32 at 1. rewrite (Z.mod_small (u / 100000000)) by lia.
    assert (Hq : 0 <= u / 100000000 < 10000) by lia.
    pose proof (dec4_emits _ p false m Hq) as M1. destruct (canonical_first _ Hq) as [C1 L1].
    destruct (dec4 (u / 100000000) p false m) as [p1 m1].
    destruct (Fin (u mod 100000000) (u / 100000000) p1 m1 _ ltac:(lia) ltac:(lia) M1 C1) as (l' & A & B & D).
    exists l'. split; [exact A|]. split; [|lia].
    replace u with (u / 100000000 * 100000000 + u mod 100000000) by lia. exact B.
Qed.

(** ** Signed numbers *)
Lemma abs_neg w v : 1 <= w -> - 2 ^ (w - 1) < v < 0 -> branchless_abs w v = Some (-1, - v).
Proof.
  intros Hw Hv. unfold branchless_abs. cbv zeta.
  assert (P : 0 < 2 ^ (w - 1)) by (apply Z.pow_pos_nonneg; lia).
  assert (P2 : 2 ^ w = 2 * 2 ^ (w - 1)) by (rewrite <- Z.pow_succ_r by lia; f_equal; lia).
  rewrite Z.shiftr_div_pow2 by lia. replace (v / 2 ^ (w - 1)) with (-1).
  2:{ apply Z.div_unique with (r := v + 2 ^ (w - 1)); lia. }
  replace (_ || _) with false by lia.
  replace (Z.lxor (v + -1) (-1)) with (- v).
  2:{ rewrite Z.lxor_m1_r. unfold Z.lnot. lia. }
  rewrite Z.mod_small by lia. reflexivity.
Qed.
Lemma abs_pos w v : 1 <= w -> 0 <= v < 2 ^ (w - 1) -> branchless_abs w v = Some (0, v).
Proof.
  intros Hw Hv. unfold branchless_abs. cbv zeta.
  assert (P2 : 2 ^ w = 2 * 2 ^ (w - 1)) by (rewrite <- Z.pow_succ_r by lia; f_equal; lia).
  rewrite Z.shiftr_div_pow2 by lia. rewrite Z.div_small by lia. rewrite Z.add_0_r, Z.lxor_0_r.
  replace (_ || _) with false by lia. rewrite Z.mod_small by lia. reflexivity.
Qed.
Lemma abs_min w : 2 <= w -> branchless_abs w (- 2 ^ (w - 1)) = None.
Proof.
  intros Hw. unfold branchless_abs. cbv zeta. rewrite Z.shiftr_div_pow2 by lia.
  assert (P : 0 < 2 ^ (w - 1)) by (apply Z.pow_pos_nonneg; lia).
  replace (- 2 ^ (w - 1) / 2 ^ (w - 1)) with (-1).
  2:{ apply Z.div_unique with (r := 0); lia. }
  replace (_ || _) with true by lia. reflexivity.
Qed.

(** text of a signed number *)
Definition canonical_signed (v : Z) (l : list Z) : Prop :=
  (0 <= v -> canonical v l) /\ (v < 0 -> exists l', l = 45 :: l' /\ canonical (- v) l').

Lemma put_put_all m p l c : l <> [] -> memq (put_all (put m p c) p l) (put_all m p l).
Proof.
  intros H x. unfold put_all, put. destruct ((p <=? x) && (x <? p + Z.of_nat (length l))) eqn:E; [reflexivity|].
  destruct (x =? p) eqn:E2; [|reflexivity]. destruct l; [congruence|]. cbn [length] in E. lia.
Qed.
Lemma sign_put m p l c : memq (put_all (put m p c) (p + 1) l) (put_all m p (c :: l)).
Proof.
  intros x. unfold put_all, put. cbn [length].
  destruct ((p + 1 <=? x) && (x <? p + 1 + Z.of_nat (length l))) eqn:E.
  - replace ((p <=? x) && (x <? p + Z.of_nat (S (length l)))) with true by lia.
    replace (Z.to_nat (x - p)) with (S (Z.to_nat (x - (p + 1)))) by lia. reflexivity.
  - destruct (x =? p) eqn:E2.
    + replace ((p <=? x) && (x <? p + Z.of_nat (S (length l)))) with true by lia.
      replace (Z.to_nat (x - p)) with 0%nat by lia. reflexivity.
    + replace ((p <=? x) && (x <? p + Z.of_nat (S (length l)))) with false by lia. reflexivity.
Qed.
Lemma i2a_gen (conv : Z -> Z -> cmem -> Z * cmem) w n v p m :
  2 <= w -> - 2 ^ (w - 1) < v < 2 ^ (w - 1) ->
  (forall u p m, 0 <= u < 2 ^ w -> exists l, emits (conv u p m) p m l /\ canonical u l /\ (length l <= n)%nat) ->
  exists r l, match branchless_abs w v with
              | None => None
              | Some (sign, a) => Some (conv a (p + Z.land sign 1) (put m p 45))
              end = Some r /\ emits r p m l /\ canonical_signed v l /\ (length l <= S n)%nat.
Proof.
  intros Hw Hv H.
  assert (P2 : 2 ^ w = 2 * 2 ^ (w - 1)) by (rewrite <- Z.pow_succ_r by lia; f_equal; lia).
  destruct (Z_lt_ge_dec v 0) as [N|P].
  - rewrite abs_neg by lia. change (Z.land (-1) 1) with 1.
    destruct (H (- v) (p + 1) (put m p 45) ltac:(lia)) as (l & [E1 E2] & C & L).
    exists (conv (- v) (p + 1) (put m p 45)), (45 :: l). split; [reflexivity|]. split; [split|split].
    + rewrite E1. cbn [length]. lia.
    + eapply memq_trans; [exact E2|]. apply sign_put.
    + split; [lia|]. intros _. exists l. auto.
    + cbn [length]. lia.
  - rewrite abs_pos by lia. change (Z.land 0 1) with 0. rewrite Z.add_0_r.
    destruct (H v p (put m p 45) ltac:(lia)) as (l & [E1 E2] & C & L).
    exists (conv v p (put m p 45)), l. split; [reflexivity|]. split; [split|split].
    + exact E1.
    + eapply memq_trans; [exact E2|]. apply put_put_all. apply C.
    + split; [intros _; exact C|lia].
    + lia.
Qed.

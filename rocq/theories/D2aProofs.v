(** * D2aProofs: the printed digits stay inside the rounding interval *)
From Verif Require Import Base Erthink ErthinkProofs D2a.
From Coq Require Import ZifyBool ZifyNat.
Ltac Zify.zify_post_hook ::= Z.div_mod_to_equations.

(** ** Numbers spelt by digits, the last one first *)
Fixpoint dval (ds : list Z) : Z := match ds with [] => 0 | c :: ds => 10 * dval ds + (c - 48) end.
Definition isdig (c : Z) : Prop := 48 <= c <= 57.

Lemma dval_nonneg ds : Forall isdig ds -> 0 <= dval ds.
Proof. induction 1 as [|c ds H _ IH]; cbn [dval]; [lia|]. unfold isdig in H. lia. Qed.

Lemma u64_small x : 0 <= x < 2 ^ 64 -> u64 x = x.
Proof. intros H. unfold u64. apply Z.mod_small. exact H. Qed.

Lemma pow10_pos k : 0 <= k -> 0 < 10 ^ k. Proof. intros. apply Z.pow_pos_nonneg; lia. Qed.
Lemma pow2_pos k : 0 <= k -> 0 < 2 ^ k. Proof. intros. apply Z.pow_pos_nonneg; lia. Qed.
Lemma pow10_succ k : 0 <= k -> 10 ^ (k + 1) = 10 * 10 ^ k.
Proof. intros. rewrite Z.pow_add_r by lia. change (10 ^ 1) with 10. lia. Qed.

(** ** Adjusting the last digit *)
(** [delta] bounds how far below [T] the number may go; both are in units in which the last
    digit counts [tk]. *)
Lemma adjust_ok fuel : forall delta rest tk upper ds x T, (fuel > 0)%nat ->
  Forall isdig ds -> ds <> [] -> 0 <= rest <= delta -> 0 < tk -> delta + tk < 2 ^ 64 ->
  T = dval ds * tk + rest -> (Z.of_nat fuel + 48 > hd 48 ds) ->
  exists ds' x', adjust fuel delta rest tk upper ds x = Some (ds', x') /\ Forall isdig ds' /\
    ((x' = x /\ length ds' = length ds /\ T - delta <= dval ds' * tk <= T) \/
     (x' = x + 1 /\ length ds = S (length ds') /\ T - delta <= 10 * dval ds' * tk <= T)).
Proof.
  induction fuel as [|fuel IH]; intros delta rest tk upper ds x T Hf Fd Nd Hr Ht Ho HT Hh; [lia|].
  cbn [adjust]. rewrite !u64_small by lia.
  destruct ((delta >=? tk + rest) && _) eqn:C.
  2:{ exists ds, x. split; [reflexivity|]. split; [exact Fd|]. left. repeat split; lia. }
  apply andb_prop in C as [C _]. apply Z.geb_le in C.
  destruct ds as [|c ds]; [congruence|]. cbn [adjust_last_digit hd dval] in *.
  inversion Fd as [|? ? Hc Fd']; subst. unfold isdig in Hc.
  destruct (c - 1 <? 49) eqn:L.
  - exists ds, (x + 1). split; [reflexivity|]. split; [exact Fd'|]. right. split; [reflexivity|]. split; [reflexivity|].
    assert (c = 48 \/ c = 49) as [-> | ->] by lia.
    + replace ((10 * dval ds + (48 - 48)) * tk) with (10 * dval ds * tk) by ring. lia.
    + replace ((10 * dval ds + (49 - 48)) * tk) with (10 * dval ds * tk + tk) by ring. lia.
  - destruct (IH delta (rest + tk) tk upper (c - 1 :: ds) x ((10 * dval ds + (c - 48)) * tk + rest)) as (ds' & x' & E & F' & R).
    + destruct fuel; lia.
    + constructor; [unfold isdig; lia|exact Fd'].
    + discriminate.
    + lia.
    + lia.
    + lia.
    + cbn [dval]. ring.
    + cbn [hd]. lia.
    + exists ds', x'. split; [exact E|]. split; [exact F'|]. exact R.
Qed.

(** ** Digits *)
(** the number D * 10^kap, in units of 2^-s, is at most [delta] below [top] and not above it *)
Definition near (top delta s D kap : Z) : Prop :=
  (0 <= kap -> top - delta <= D * 10 ^ kap * 2 ^ s <= top) /\
  (kap <= 0 -> (top - delta) * 10 ^ (- kap) <= D * 2 ^ s <= top * 10 ^ (- kap)).

Lemma near_pop top delta s D kap : near top delta s (10 * D) kap -> near top delta s D (kap + 1).
Proof.
  intros [A B]. split; intros H.
  - destruct (Z_lt_ge_dec kap 0) as [N|P].
    + assert (kap = -1) by lia. subst kap. specialize (B ltac:(lia)). change (10 ^ (- -1)) with 10 in B.
      change (10 ^ (-1 + 1)) with 1. lia.
    + specialize (A ltac:(lia)). rewrite pow10_succ by lia. lia.
  - specialize (B ltac:(lia)). replace (10 ^ (- kap)) with (10 * 10 ^ (- (kap + 1))) in B
      by (rewrite <- pow10_succ by lia; f_equal; lia). lia.
Qed.

Section Digits.
Variables (accurate : bool) (s gap exp10 top delta0 : Z).
Hypotheses (Hs : 32 <= s <= 60) (Htop : 0 <= top < 2 ^ 64)
  (Hd0 : 1 <= delta0 < 10 * 2 ^ s) (Hlow : delta0 < top) (Hratio : top < 10 ^ 16 * delta0).

Definition result (r : option (list Z * Z)) : Prop :=
  exists ds kap, r = Some (ds, exp10 + kap) /\ Forall isdig ds /\ (1 <= length ds <= 17)%nat /\
    -19 <= kap <= 11 /\ near top delta0 s (dval ds) kap.

Lemma s_pow : 2 ^ 32 <= 2 ^ s <= 2 ^ 60.
Proof. split; apply Z.pow_le_mono_r; lia. Qed.

Lemma mask_val : digit_mask s = 2 ^ s - 1.
Proof.
  unfold digit_mask. rewrite Z.shiftr_div_pow2 by lia.
  replace (2 ^ 64 - 1) with ((2 ^ s - 1) * 2 ^ (64 - s) + (2 ^ (64 - s) - 1)).
  2:{ replace (2 ^ 64) with (2 ^ s * 2 ^ (64 - s)) by (rewrite <- Z.pow_add_r by lia; f_equal; lia). ring. }
  pose proof (pow2_pos (64 - s) ltac:(lia)).
  rewrite Z.div_add_l, (Z.div_small (2 ^ (64 - s) - 1)) by lia. lia.
Qed.

Lemma nonempty ds kap : Forall isdig ds -> near top delta0 s (dval ds) kap -> (1 <= length ds)%nat.
Proof.
  intros F [A B]. destruct ds; [|cbn [length]; lia]. cbn [dval] in *. exfalso.
  destruct (Z_le_gt_dec 0 kap) as [P|N].
  - specialize (A P). lia.
  - specialize (B ltac:(lia)). pose proof (pow10_pos (- kap) ltac:(lia)). nia.
Qed.

(** the end of every path: digits in hand, the rest below [top] known *)
Lemma finish_ok delta rest tk upper ds kap :
  Forall isdig ds -> (1 <= length ds <= 17)%nat -> -19 <= kap <= 10 -> 0 <= rest -> 0 < tk ->
  near top delta0 s (dval ds) kap ->
  (delta < tk + rest /\ tk + rest < 2 ^ 64 \/
   exists T, rest <= delta /\ delta + tk < 2 ^ 64 /\ T = dval ds * tk + rest /\
     forall D', T - delta <= D' * tk <= T -> near top delta0 s D' kap) ->
  result (finish accurate delta rest tk upper ds (exp10 + kap)).
Proof.
  intros Fd Ln Hk Hr Ht Nr C. unfold finish.
  assert (Same : result (Some (ds, exp10 + kap))).
  { exists ds, kap. repeat split; auto; try apply Nr; lia. }
  destruct accurate; [|exact Same].
  destruct C as [[C1 C2]|(T & C1 & C2 & C3 & C4)].
  - cbn [adjust]. rewrite (u64_small (tk + rest)) by lia. replace (delta >=? tk + rest) with false by lia. exact Same.
  - destruct (adjust_ok 20 delta rest tk upper ds (exp10 + kap) T) as (ds' & x' & E & F' & R); auto; try lia.
    + intros ->. cbn in Ln. lia.
    + destruct Fd as [|c ds Hc Fd]; cbn [hd]; [lia|]. unfold isdig in Hc. lia.
    + rewrite E. destruct R as [(-> & L & R)|(-> & L & R)].
      * exists ds', kap. split; [reflexivity|]. specialize (C4 _ R). repeat split; auto; try apply C4; lia.
      * assert (N : near top delta0 s (dval ds') (kap + 1)) by (apply near_pop, C4; exact R).
        exists ds', (kap + 1). split; [f_equal; f_equal; lia|]. pose proof (nonempty _ _ F' N).
        repeat split; auto; try apply N; lia.
Qed.

(** the digits of the fraction *)
Lemma count_ok ds j : 0 <= j -> (1 <= length ds)%nat ->
  10 ^ (Z.of_nat (length ds) - 1) <= dval ds -> dval ds * 2 ^ s <= top * 10 ^ j -> delta0 * 10 ^ j < 10 * 2 ^ s ->
  (length ds <= 17)%nat.
Proof.
  intros Hj L1 L2 L3 L4. destruct (le_lt_dec (length ds) 17) as [K|K]; [exact K|exfalso].
  assert (10 ^ 17 <= 10 ^ (Z.of_nat (length ds) - 1)) by (apply Z.pow_le_mono_r; lia).
  pose proof (pow10_pos j Hj). pose proof s_pow.
  assert (dval ds * (delta0 * 10 ^ j) <= dval ds * (10 * 2 ^ s)) by (apply Z.mul_le_mono_nonneg_l; lia).
  assert (dval ds * (10 * 2 ^ s) <= 10 * (top * 10 ^ j)) by lia.
  assert (10 ^ 17 * (delta0 * 10 ^ j) <= dval ds * (delta0 * 10 ^ j)) by (apply Z.mul_le_mono_nonneg_r; nia).
  assert (10 * (top * 10 ^ j) < 10 ^ 17 * (delta0 * 10 ^ j)).
  { replace (10 ^ 17 * (delta0 * 10 ^ j)) with (10 * (10 ^ 16 * delta0 * 10 ^ j)) by (change (10 ^ 17) with (10 * 10 ^ 16); ring).
    apply Z.mul_lt_mono_pos_l; [lia|]. apply Z.mul_lt_mono_pos_r; lia. }
  lia.
Qed.

Lemma fraction_ok fuel : forall digit j delta tail ds, 0 <= j ->
  Forall isdig ds -> 0 <= digit <= 9 -> 0 <= tail < 2 ^ s -> delta = delta0 * 10 ^ j -> delta < 10 * 2 ^ s ->
  top * 10 ^ j = (10 * dval ds + digit) * 2 ^ s + tail ->
  10 ^ Z.of_nat (length ds) <= 10 * dval ds + digit ->
  2 ^ 64 <= 10 ^ (Z.of_nat fuel + j) ->
  gap < 2 ^ 63 ->
  result (fraction accurate s gap exp10 fuel digit (- j) delta tail ds).
Proof.
  induction fuel as [|fuel IH]; intros digit j delta tail ds Hj Fd Hdg Htl Hde Hdl Hv Hc Hf Hg.
  { exfalso. cbn [Z.of_nat] in Hf. rewrite Z.add_0_l in Hf. pose proof s_pow. assert (1 * 10 ^ j <= delta0 * 10 ^ j) by (apply Z.mul_le_mono_nonneg_r; [pose proof (pow10_pos j Hj); lia|lia]). lia. }
  cbn [fraction]. cbv zeta. pose proof s_pow as Sp. rewrite Z.gtb_ltb.
  assert (Fd' : Forall isdig (digit + 48 :: ds)) by (constructor; [unfold isdig; lia|exact Fd]).
  assert (Dv : dval (digit + 48 :: ds) = 10 * dval ds + digit) by (cbn [dval]; lia).
  destruct (delta <? tail) eqn:C.
  - rewrite !u64_small by lia. rewrite mask_val, land_mask, Z.shiftr_div_pow2 by lia.
    assert (0 <= tail * 10 / 2 ^ s <= 9).
    { split; [apply Z.div_pos; lia|]. assert (tail * 10 / 2 ^ s < 10) by (apply Z.div_lt_upper_bound; lia). lia. }
    replace (- j - 1) with (- (j + 1)) by lia.
    apply IH; auto; try lia; try (apply Z.mod_pos_bound; lia).
    + rewrite pow10_succ by lia. subst delta. ring.
    + rewrite pow10_succ by lia. rewrite Dv. pose proof (Z.div_mod (tail * 10) (2 ^ s) ltac:(lia)).
      replace (top * (10 * 10 ^ j)) with (10 * (top * 10 ^ j)) by ring. rewrite Hv. lia.
    + cbn [length]. rewrite Dv. rewrite Nat2Z.inj_succ, <- Z.add_1_r, pow10_succ by lia. lia.
    + replace (Z.of_nat fuel + (j + 1)) with (Z.of_nat (S fuel) + j) by lia. exact Hf.
  - rewrite Z.opp_involutive. unfold dec_power.
    assert (j < 20).
    { destruct (Z_lt_ge_dec j 20) as [K|K]; [exact K|exfalso].
      assert (10 ^ 20 <= 10 ^ j) by (apply Z.pow_le_mono_r; lia).
      assert (1 * 10 ^ j <= delta0 * 10 ^ j) by (apply Z.mul_le_mono_nonneg_r; lia). lia. }
    replace ((0 <=? j) && (j <? 20)) with true by lia.
    rewrite mask_val. replace (2 ^ s - 1 + 1) with (2 ^ s) by lia. rewrite (u64_small (2 ^ s)) by lia.
    assert (Nr : forall D', top * 10 ^ j - delta <= D' * 2 ^ s <= top * 10 ^ j -> near top delta0 s D' (- j)).
    { intros D' HD. split; intros Hj'.
      - assert (j = 0) by lia. subst j. change (- 0) with 0 in *. change (10 ^ 0) with 1 in *. lia.
      - rewrite Z.opp_involutive. subst delta. lia. }
    assert (Len : (length (digit + 48 :: ds)%Z <= 17)%nat).
    { apply (count_ok _ j); auto; try (cbn [length]; lia); rewrite ?Dv; try lia.
      cbn [length]. replace (Z.of_nat (S (length ds)) - 1) with (Z.of_nat (length ds)) by lia. exact Hc. }
    apply finish_ok; auto; try lia.
    + cbn [length] in *. lia.
    + apply Nr. rewrite Dv. lia.
    + right. exists (top * 10 ^ j). rewrite Dv. (split; [lia|split; [lia|split; [lia|exact Nr]]]).
Qed.

Lemma zeros_ok fuel : forall digit j delta tail, 0 <= j ->
  0 <= digit <= 9 -> 0 <= tail < 2 ^ s -> delta = delta0 * 10 ^ j ->
  (digit = 0 -> delta <= tail) -> delta < 10 * 2 ^ s ->
  top * 10 ^ j = digit * 2 ^ s + tail ->
  2 ^ 64 <= 10 ^ (Z.of_nat fuel + j) ->
  gap < 2 ^ 63 ->
  result (zeros accurate s gap exp10 fuel digit (- j) delta tail []).
Proof.
  induction fuel as [|fuel IH]; intros digit j delta tail Hj Hdg Htl Hde Hdt Hdl Hv Hf Hg.
  { exfalso. cbn [Z.of_nat] in Hf. rewrite Z.add_0_l in Hf. pose proof s_pow. assert (1 * 10 ^ j <= delta0 * 10 ^ j) by (apply Z.mul_le_mono_nonneg_r; [pose proof (pow10_pos j Hj); lia|lia]). lia. }
  cbn [zeros]. cbv zeta. pose proof s_pow as Sp.
  destruct (digit =? 0) eqn:C; cbn [negb].
  - assert (digit = 0) by lia. subst digit. specialize (Hdt eq_refl).
    rewrite !u64_small by lia. rewrite mask_val, land_mask, Z.shiftr_div_pow2 by lia.
    assert (0 <= tail * 10 / 2 ^ s <= 9).
    { split; [apply Z.div_pos; lia|]. assert (tail * 10 / 2 ^ s < 10) by (apply Z.div_lt_upper_bound; lia). lia. }
    replace (- j - 1) with (- (j + 1)) by lia.
    pose proof (Z.div_mod (tail * 10) (2 ^ s) ltac:(lia)) as DM.
    apply IH; auto; try lia; try (apply Z.mod_pos_bound; lia).
    + rewrite pow10_succ by lia. subst delta. ring.
    + rewrite pow10_succ by lia. replace (top * (10 * 10 ^ j)) with (10 * (top * 10 ^ j)) by ring. rewrite Hv. lia.
    + replace (Z.of_nat fuel + (j + 1)) with (Z.of_nat (S fuel) + j) by lia. exact Hf.
  - assert (10 ^ 24 <= 10 ^ (Z.of_nat 25 + j)) by (apply Z.pow_le_mono_r; lia).
    apply fraction_ok; auto; cbn [dval length]; change (10 ^ Z.of_nat 0) with 1; try lia.
Qed.

(** an early exit with [kap] digits of the integer part left out *)
Lemma early_ok kap tail left ds :
  0 <= kap <= 9 -> 0 <= tail < 2 ^ s -> Forall isdig ds -> 0 <= left < delta0 ->
  (kap = 0 -> tail = left) -> 1 <= dval ds ->
  10 ^ (Z.of_nat (length ds) - 1) <= dval ds -> (1 <= length ds)%nat ->
  top = dval ds * (10 ^ kap * 2 ^ s) + left ->
  result (early_skip accurate s gap exp10 kap delta0 tail ds).
Proof.
  intros Hk Htl Fd Hl Ht0 Hd1 Hc L1 Hv. unfold early_skip, dec_power.
  replace ((0 <=? kap) && (kap <? 20)) with true by lia. rewrite Z.shiftl_mul_pow2 by lia.
  pose proof s_pow as Sp. pose proof (pow10_pos kap ltac:(lia)) as Pk.
  assert (0 < 10 ^ kap * 2 ^ s) by nia.
  assert (1 * (10 ^ kap * 2 ^ s) <= dval ds * (10 ^ kap * 2 ^ s)) by (apply Z.mul_le_mono_nonneg_r; lia).
  rewrite u64_small by lia.
  assert (Len : (length ds <= 17)%nat).
  { apply (count_ok ds 0); auto; try lia; change (10 ^ 0) with 1; try lia.
    assert (dval ds * (1 * 2 ^ s) <= dval ds * (10 ^ kap * 2 ^ s)); [|lia].
    apply Z.mul_le_mono_nonneg_l; [lia|]. apply Z.mul_le_mono_nonneg_r; lia. }
  assert (Nr : forall D', top - delta0 <= D' * (10 ^ kap * 2 ^ s) <= top -> near top delta0 s D' kap).
  { intros D' HD. split; intros H'; [rewrite <- Z.mul_assoc; exact HD|].
    assert (kap = 0) by lia. subst kap. change (10 ^ 0) with 1 in HD. change (10 ^ (- 0)) with 1. lia. }
  apply finish_ok; auto; try lia.
  - apply Nr. lia.
  - destruct (Z.eq_dec kap 0) as [K|K].
    + subst kap. rewrite (Ht0 eq_refl) in *. change (10 ^ 0) with 1 in *. right. exists top. (split; [lia|split; [lia|split; [lia|exact Nr]]]).
    + left. assert (10 * 2 ^ s <= 10 ^ kap * 2 ^ s).
      { apply Z.mul_le_mono_nonneg_r; [lia|]. change 10 with (10 ^ 1) at 1. apply Z.pow_le_mono_r; lia. }
      split; [lia|]. destruct (Z_lt_ge_dec (10 ^ kap * 2 ^ s + tail) (2 ^ 64)) as [X|X]; [lia|exfalso].
      (* tail is the fraction of top, so it fits beside any multiple of 2^s not above top *)
      assert (Hm : (10 ^ kap * 2 ^ s + tail) / 2 ^ s <= top / 2 ^ s).
      { rewrite Z.div_add_l by lia. rewrite (Z.div_small tail) by lia.
        replace top with (dval ds * 10 ^ kap * 2 ^ s + left) by lia. rewrite Z.div_add_l by lia.
        assert (0 <= left / 2 ^ s) by (apply Z.div_pos; lia).
        assert (1 * 10 ^ kap <= dval ds * 10 ^ kap) by (apply Z.mul_le_mono_nonneg_r; lia). lia. }
      assert (2 ^ (64 - s) <= (10 ^ kap * 2 ^ s + tail) / 2 ^ s).
      { apply Z.div_le_lower_bound; [lia|]. rewrite Z.mul_comm, <- Z.pow_add_r by lia. replace (64 - s + s) with 64 by lia. lia. }
      assert (top / 2 ^ s < 2 ^ (64 - s)).
      { apply Z.div_lt_upper_bound; [lia|]. rewrite <- Z.pow_add_r by lia. replace (s + (64 - s)) with 64 by lia. lia. }
      lia.
Qed.

Lemma integral_ok kappa : forall digit body tail ds, (1 <= kappa <= 9)%nat ->
  Forall isdig ds -> 0 <= digit <= 9 -> 0 <= tail < 2 ^ s -> 0 <= body < 10 ^ Z.of_nat kappa ->
  1 <= 10 * dval ds + digit ->
  top = (10 * dval ds + digit) * (10 ^ Z.of_nat kappa * 2 ^ s) + body * 2 ^ s + tail ->
  10 ^ Z.of_nat (length ds) <= 10 * dval ds + digit ->
  gap < 2 ^ 63 ->
  result (integral accurate s gap exp10 kappa digit body delta0 tail ds).
Proof.
  induction kappa as [|kappa IH]; intros digit body tail ds Hk Fd Hdg Htl Hb H1 Hv Hc Hg; [lia|].
  pose proof s_pow as Sp.
  assert (Fd' : Forall isdig (digit + 48 :: ds)) by (constructor; [unfold isdig; lia|exact Fd]).
  assert (Dv : dval (digit + 48 :: ds) = 10 * dval ds + digit) by (cbn [dval]; lia).
  assert (Dl : 10 ^ Z.of_nat (length (digit + 48 :: ds)) <= 10 * (10 * dval ds + digit)).
  { cbn [length]. rewrite Nat2Z.inj_succ, <- Z.add_1_r, pow10_succ by lia. lia. }
  cbn [integral]. destruct kappa as [|k].
  - change 0 with (- 0). change (10 ^ Z.of_nat 1) with 10 in *.
    apply fraction_ok; auto; try lia; rewrite ?Dv; change (10 ^ 0) with 1; try lia.
  - cbv zeta. set (p := 10 ^ Z.of_nat (S k)) in *.
    assert (Pp : 0 < p) by (apply pow10_pos; lia).
    assert (P10 : 10 ^ Z.of_nat (S (S k)) = 10 * p).
    { unfold p. rewrite <- pow10_succ by lia. f_equal. lia. }
    rewrite P10 in *.
    assert (Dg : 0 <= body / p <= 9).
    { split; [apply Z.div_pos; lia|]. assert (body / p < 10) by (apply Z.div_lt_upper_bound; lia). lia. }
    pose proof (Z.mod_pos_bound body p Pp) as Mb. pose proof (Z.div_mod body p ltac:(lia)) as DM.
    set (q := body / p) in *. set (r := body mod p) in *. clearbody q r.
    assert (Tv : top = (10 * (10 * dval ds + digit) + q) * (p * 2 ^ s) + (r * 2 ^ s + tail)) by (rewrite Hv, DM; ring).
    assert (Nn : 0 <= (10 * (10 * dval ds + digit) + q) * (p * 2 ^ s)) by (apply Z.mul_nonneg_nonneg; nia).
    assert (0 <= r * 2 ^ s) by nia.
    rewrite Z.shiftl_mul_pow2 by lia. rewrite (u64_small (r * 2 ^ s)) by lia. rewrite u64_small by lia.
    assert (E10 : dval (q + 48 :: digit + 48 :: ds) = 10 * (10 * dval ds + digit) + q) by (cbn [dval]; lia).
    destruct (r * 2 ^ s + tail <? delta0) eqn:C.
    + destruct (q =? 0) eqn:Q; cbn [negb].
      * assert (q = 0) by lia. subst q.
        assert (Tk : top = dval (digit + 48 :: ds) * (10 ^ (Z.of_nat (S k) + 1) * 2 ^ s) + (r * 2 ^ s + tail)).
        { rewrite Dv, pow10_succ by lia. fold p. rewrite Tv at 1. ring. }
        assert (10 ^ (Z.of_nat (length (digit + 48 :: ds)) - 1) <= dval (digit + 48 :: ds)).
        { cbn [length]. rewrite Dv. replace (Z.of_nat (S (length ds)) - 1) with (Z.of_nat (length ds)) by lia. exact Hc. }
        apply (early_ok _ tail (r * 2 ^ s + tail)); auto; try lia; cbn [length]; lia.
      * assert (Tk : top = dval (q + 48 :: digit + 48 :: ds) * (10 ^ (Z.of_nat (S k)) * 2 ^ s) + (r * 2 ^ s + tail)).
        { rewrite E10. fold p. exact Tv. }
        assert (10 ^ (Z.of_nat (length (q + 48 :: digit + 48 :: ds)) - 1) <= dval (q + 48 :: digit + 48 :: ds)).
        { rewrite E10. cbn [length] in *. replace (Z.of_nat (S (S (length ds))) - 1) with (Z.of_nat (S (length ds))) by lia. lia. }
        assert (Forall isdig (q + 48 :: digit + 48 :: ds)) by (constructor; [unfold isdig; lia|exact Fd']).
        unfold early_last. apply (early_ok _ tail (r * 2 ^ s + tail)); auto; try lia; cbn [length]; lia.
    + apply IH; auto; try lia; rewrite ?Dv; try lia.
Qed.

Lemma leading_ok kappa : forall body tail, (1 <= kappa <= 10)%nat ->
  0 <= tail < 2 ^ s -> 0 <= body < 10 ^ Z.of_nat kappa -> top = body * 2 ^ s + tail -> gap < 2 ^ 63 ->
  result (leading accurate s gap exp10 kappa body delta0 tail).
Proof.
  induction kappa as [|kappa IH]; intros body tail Hk Htl Hb Hv Hg; [lia|]. pose proof s_pow as Sp.
  cbn [leading]. destruct kappa as [|k].
  - change (10 ^ Z.of_nat 1) with 10 in *. destruct (tail <? delta0) eqn:C.
    + assert (1 <= body) by (destruct (Z_lt_ge_dec body 1) as [B|B]; [assert (body = 0) by lia; subst body; lia|lia]).
      unfold early_last. apply (early_ok _ tail tail); auto; cbn [dval length]; try lia.
      constructor; [unfold isdig; lia|constructor].
    + change 0 with (- 0). apply zeros_ok; auto; change (10 ^ 0) with 1; lia.
  - cbv zeta. set (p := 10 ^ Z.of_nat (S k)) in *.
    assert (Pp : 0 < p) by (apply pow10_pos; lia).
    assert (P10 : 10 ^ Z.of_nat (S (S k)) = 10 * p).
    { unfold p. rewrite <- pow10_succ by lia. f_equal. lia. }
    rewrite P10 in *.
    assert (Dg : 0 <= body / p <= 9).
    { split; [apply Z.div_pos; lia|]. assert (body / p < 10) by (apply Z.div_lt_upper_bound; lia). lia. }
    pose proof (Z.mod_pos_bound body p Pp) as Mb. pose proof (Z.div_mod body p ltac:(lia)) as DM.
    set (q := body / p) in *. set (r := body mod p) in *. clearbody q r.
    destruct (q =? 0) eqn:C.
    + apply IH; auto; lia.
    + apply integral_ok; auto; cbn [dval length]; try lia.
Qed.
End Digits.

Lemma dec_digits_ok n : 0 <= n < 2 ^ 32 -> (1 <= Z.to_nat (dec_digits n) <= 10)%nat /\ n < 10 ^ Z.of_nat (Z.to_nat (dec_digits n)).
Proof.
  intros H. unfold dec_digits.
  repeat match goal with |- context [?a <? ?b] => destruct (Z.ltb_spec a b) end; (split; [lia|]);
    match goal with |- context [Z.to_nat ?k] => change (Z.of_nat (Z.to_nat k)) with k end; lia.
Qed.

Lemma make_digits_ok accurate top delta exp10 value s :
  32 <= s <= 60 -> 0 <= top < 2 ^ 64 -> 1 <= delta < 10 * 2 ^ s -> delta < top -> top < 10 ^ 16 * delta ->
  0 <= value <= top -> top - value < 2 ^ 63 ->
  result s exp10 top delta (make_digits accurate top delta exp10 value s).
Proof.
  intros Hs Ht Hd Hl Hr Hv Hg. unfold make_digits. rewrite Z.shiftr_div_pow2 by lia.
  assert (P : 2 ^ 32 <= 2 ^ s) by (apply Z.pow_le_mono_r; lia).
  assert (B : 0 <= top / 2 ^ s < 2 ^ 32).
  { split; [apply Z.div_pos; lia|]. apply Z.div_lt_upper_bound; [lia|]. change (2 ^ 64) with (2 ^ 32 * 2 ^ 32) in Ht. nia. }
  unfold u32 at 1. rewrite (Z.mod_small (top / 2 ^ s)) by exact B.
  destruct (dec_digits_ok _ B) as [D1 D2].
  rewrite mask_val, land_mask by lia. rewrite u64_small by lia.
  apply leading_ok; auto; try lia; try (apply Z.mod_pos_bound; lia).
Qed.

(** ** The table of powers of ten *)
(** the entry of index [i] is the power of ten rounded to the nearest: F * 2^Fe = 10^(8i - 340) up to half a unit of F *)
Definition entry_ok (i : nat) : bool :=
  match nth_error power10_mas i, nth_error power10_exp2 i with
  | Some F, Some Fe =>
    let K := 8 * Z.of_nat i - 340 in
    let pn := 10 ^ Z.max K 0 * 2 ^ Z.max (- Fe) 0 in
    let pd := 10 ^ Z.max (- K) 0 * 2 ^ Z.max Fe 0 in
    ((2 * F - 1) * pd <=? 2 * pn) && (2 * pn <=? (2 * F + 1) * pd)
  | _, _ => false
  end.
Lemma entries_ok : forallb entry_ok (seq 0 86) = true.
Proof. vm_compute. reflexivity. Qed.

(** for every binary exponent in use the entry exists, and it brings the number into range *)
Definition index_ok (e : Z) : bool :=
  match cached_power e with
  | Some (F, Fe, x) =>
    (2 ^ 63 <=? F) && (F <? 2 ^ 64) && (-340 <=? x) && (x <=? 340) && (-1193 <=? Fe) && (Fe <=? 1066) &&
    (34 <=? - (e + (Fe + 64))) && (- (e + (Fe + 64)) <=? 60) && (F <? 10 * 2 ^ (- (Fe + Z.max (e + 11) (-1074))))
  | None => false
  end.
Lemma indexes_ok : all_below 2098 (fun i => index_ok (i - 1137)) = true.
Proof. vm_compute. reflexivity. Qed.

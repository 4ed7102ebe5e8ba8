(** * Properties of time values, comparisons, string views and string helpers *)
From Verif Require Import Base Hippeus HippeusProofs Values ValuesProofs.
From Coq Require Import ZifyBool ZifyNat.
Ltac Zify.zify_post_hook ::= Z.div_mod_to_equations.

(** ** C26. Time conversion is monotone and accurate to one unit *)
(** [f] units per second: 10^9, 10^6, 10^3, 10^7, or any other resolution up to 2^32 *)
Theorem C26_seconds_exact_fraction_within_one : forall f v, 0 < f <= 2 ^ 32 -> 0 <= v -> v / f < 2 ^ 32 ->
  let t := scale_in v f in
  0 <= t < 2 ^ 64 /\ utc_seconds t = v / f /\
  v mod f - 1 <= fractional2units (fractional t) f <= v mod f.
Proof.
  intros f v Hf Hv Hr t. destruct (scale_in_value v f Hf Hv Hr) as [E B]. fold t in E.
  pose proof (back_frac (v mod f) f Hf (Z.mod_pos_bound v f ltac:(lia))) as K.
  set (q := (v mod f) * 2 ^ 32 / f) in *. set (s := v / f) in *.
  assert (Hs : 0 <= s) by (apply Z.div_pos; lia). clearbody q s.
  unfold utc_seconds, fractional, u32. rewrite E, Z.shiftr_div_pow2 by lia.
  replace ((s * 2 ^ 32 + q) / 2 ^ 32) with s by lia. replace ((s * 2 ^ 32 + q) mod 2 ^ 32) with q by lia.
  split; [lia|]. split; [lia|exact K].
Qed.
(** later stays later *)
Theorem C26_order_kept : forall f v w, 0 < f <= 2 ^ 32 -> 0 <= v -> w / f < 2 ^ 32 -> v < w ->
  scale_in v f < scale_in w f.
Proof.
  intros f v w Hf Hv Hr Hvw. assert (D : v / f <= w / f) by (apply Z.div_le_mono; lia).
  destruct (scale_in_value v f Hf Hv ltac:(lia)) as [Ev Bv]. destruct (scale_in_value w f Hf ltac:(lia) Hr) as [Ew Bw].
  rewrite Ev, Ew. destruct (Z.eq_dec (v / f) (w / f)) as [Q|Q].
  - rewrite Q. assert (M : v mod f < w mod f) by (rewrite !Z.mod_eq by lia; rewrite Q; lia).
    pose proof (frac_mono _ _ f Hf M). lia.
  - lia.
Qed.
(** the same for the structures of the operating system *)
Theorem C26_timespec : forall sec nsec, 0 <= sec < 2 ^ 32 -> 0 <= nsec < 1000000000 ->
  let t := from_timespec sec nsec in
  0 <= t < 2 ^ 64 /\ utc_seconds t = sec /\ nsec - 1 <= fractional2units (fractional t) 1000000000 <= nsec.
Proof.
  intros sec nsec Hs Hn t.
  assert (E : t = scale_in (sec * 1000000000 + nsec) 1000000000).
  { unfold t, from_timespec, scale_in, ns_per_second. replace ((sec * 1000000000 + nsec) / 1000000000) with sec by lia.
    replace ((sec * 1000000000 + nsec) mod 1000000000) with nsec by lia. reflexivity. }
  pose proof (C26_seconds_exact_fraction_within_one 1000000000 (sec * 1000000000 + nsec) ltac:(lia) ltac:(lia) ltac:(lia)) as H.
  cbv zeta in H. rewrite <- E in H. replace ((sec * 1000000000 + nsec) / 1000000000) with sec in H by lia.
  replace ((sec * 1000000000 + nsec) mod 1000000000) with nsec in H by lia. exact H.
Qed.
Theorem C26_timeval : forall sec usec, 0 <= sec < 2 ^ 32 -> 0 <= usec < 1000000 ->
  let t := from_timeval sec usec in
  0 <= t < 2 ^ 64 /\ utc_seconds t = sec /\ usec - 1 <= fractional2units (fractional t) 1000000 <= usec.
Proof.
  intros sec usec Hs Hn t.
  assert (E : t = scale_in (sec * 1000000 + usec) 1000000).
  { unfold t, from_timeval, scale_in, us_per_second. replace ((sec * 1000000 + usec) / 1000000) with sec by lia.
    replace ((sec * 1000000 + usec) mod 1000000) with usec by lia. reflexivity. }
  pose proof (C26_seconds_exact_fraction_within_one 1000000 (sec * 1000000 + usec) ltac:(lia) ltac:(lia) ltac:(lia)) as H.
  cbv zeta in H. rewrite <- E in H. replace ((sec * 1000000 + usec) / 1000000) with sec in H by lia.
  replace ((sec * 1000000 + usec) mod 1000000) with usec in H by lia. exact H.
Qed.
(** Windows file time: 100 ns units since 1601, in two halves *)
Theorem C26_filetime : forall high low, 0 <= high < 2 ^ 32 -> 0 <= low < 2 ^ 32 ->
  let since_1970 := high * 2 ^ 32 + low - 116444736000000000 in
  0 <= since_1970 -> since_1970 / 10000000 < 2 ^ 32 ->
  let t := from_filetime high low in
  0 <= t < 2 ^ 64 /\ utc_seconds t = since_1970 / 10000000 /\
  since_1970 mod 10000000 - 1 <= fractional2units (fractional t) 10000000 <= since_1970 mod 10000000.
Proof.
  intros high low Hh Hl s H0 Hr t.
  assert (E : t = scale_in s 10000000).
  { unfold t, from_filetime. change ns100_per_second with 10000000. f_equal. unfold u64. rewrite (shl_small high 32 64) by lia.
    rewrite lor_pack by lia. unfold Gregorian_UTC_offset_100ns. fold s. apply Z.mod_small. unfold s in *. lia. }
  pose proof (C26_seconds_exact_fraction_within_one 10000000 s ltac:(lia) H0 Hr) as H. cbv zeta in H. rewrite <- E in H. exact H.
Qed.
(** The bound is tight: one unit is really lost for most resolutions. *)
Theorem C26_unit_can_be_lost : exists v, 0 <= v < 1000000000 /\ fractional2units (fractional (scale_in v 1000000000)) 1000000000 = v - 1.
Proof. exists 1. split; [lia|vm_compute; reflexivity]. Qed.
Example C26_case : utc_seconds (scale_in 1600000000123456789 1000000000) = 1600000000 /\
  fractional2units (fractional (scale_in 1600000000123456789 1000000000)) 1000000000 = 123456788.
Proof. split; vm_compute; reflexivity. Qed.

(** the named units *)
Theorem C26_named_units : forall v, 0 <= v ->
  (v < 2 ^ 32 -> utc_seconds (from_seconds v) = v /\ fractional (from_seconds v) = 0) /\
  (v / 1000 < 2 ^ 32 -> utc_seconds (from_milliseconds v) = v / 1000 /\
     v mod 1000 - 1 <= fractional2ms (fractional (from_milliseconds v)) <= v mod 1000) /\
  (v / 1000000 < 2 ^ 32 -> utc_seconds (from_usec v) = v / 1000000 /\
     v mod 1000000 - 1 <= fractional2us (fractional (from_usec v)) <= v mod 1000000) /\
  (v / 1000000000 < 2 ^ 32 -> utc_seconds (from_nsec v) = v / 1000000000 /\
     v mod 1000000000 - 1 <= fractional2ns (fractional (from_nsec v)) <= v mod 1000000000) /\
  (v / 10000000 < 2 ^ 32 -> utc_seconds (from_100ns v) = v / 10000000 /\
     v mod 10000000 - 1 <= fractional2units (fractional (from_100ns v)) 10000000 <= v mod 10000000).
Proof.
  intros v Hv. split.
  { intros B. unfold from_seconds, utc_seconds, fractional, u32, u64. rewrite Z.shiftl_mul_pow2, Z.shiftr_div_pow2 by lia.
    change (2 ^ 32) with 4294967296 in *. change (2 ^ 64) with 18446744073709551616. lia. }
  split; [|split; [|split]]; intros B.
  - apply (C26_seconds_exact_fraction_within_one 1000 v ltac:(lia) Hv B).
  - apply (C26_seconds_exact_fraction_within_one 1000000 v ltac:(lia) Hv B).
  - apply (C26_seconds_exact_fraction_within_one 1000000000 v ltac:(lia) Hv B).
  - apply (C26_seconds_exact_fraction_within_one 10000000 v ltac:(lia) Hv B).
Qed.
Example C26_named_units_case : utc_seconds (from_milliseconds 1600000000123) = 1600000000 /\ fractional2ms (fractional (from_milliseconds 1600000000123)) = 122.
Proof. split; vm_compute; reflexivity. Qed.
(** beyond the 32 bits of seconds a time starts again at 1970, without a word *)
Theorem C26_late_time_refuted : exists v, 0 <= v < 2 ^ 64 /\ from_milliseconds v = 0 /\ from_milliseconds v < from_milliseconds (v - 1).
Proof. exists (2 ^ 32 * 1000). vm_compute. repeat split; congruence. Qed.

(** ** C53. Reduced-precision clock *)
(** A negative argument asks for that many zero low bits: the answer has them, is not later than the
    clock, and is behind it by less than their weight.  Otherwise the clock is returned as it is. *)
Theorem C53_low_bits_cleared : forall resolution fine coarse grain, 0 <= fine < 2 ^ 64 -> 0 <= coarse < 2 ^ 64 ->
  -2 ^ 31 <= grain < 2 ^ 31 ->
  let r := fptu_now resolution fine coarse grain in
  exists t, (t = fine \/ t = coarse) /\
  (0 <= grain -> r = t) /\
  (grain < 0 -> let k := Z.min 32 (- grain) in r mod 2 ^ k = 0 /\ r <= t < r + 2 ^ k /\ utc_seconds r = utc_seconds t).
Proof.
  intros resolution fine coarse grain Hf Hc Hg r. unfold fptu_now in r.
  set (t := if now_grain grain >=? resolution then coarse else fine) in *.
  assert (Ht : 0 <= t < 2 ^ 64) by (unfold t; destruct (_ >=? _); lia).
  exists t. split; [unfold t; destruct (_ >=? _); auto|]. unfold utc_seconds, fractional, u32 in *. clearbody t.
  assert (Er : r = t / 2 ^ 32 * 2 ^ 32 + Z.land (t mod 2 ^ 32) (now_mask grain)).
  { unfold r. rewrite Z.shiftl_mul_pow2, Z.shiftr_div_pow2 by lia. rewrite (Z.mod_small (t / 2 ^ 32)) by lia. reflexivity. }
  clearbody r. unfold now_mask in Er. split.
  - intros G. replace (grain <? 0) with false in Er by lia. change 0xffffFFFF with (2 ^ 32 - 1) in Er. rewrite land_mask in Er by lia. lia.
  - intros G. set (k := Z.min 32 (- grain)). replace (grain <? 0) with true in Er by lia. rewrite !Z.shiftr_div_pow2 by lia.
    destruct (grain >? -32) eqn:E.
    + assert (Ek : k = - grain) by (unfold k; lia). rewrite <- Ek in Er. assert (Hk : 1 <= k <= 31) by lia. clearbody k.
      assert (L : Z.land (t mod 2 ^ 32) (u64 (Z.shiftl 0xffffFFFF k)) = (t mod 2 ^ 32) / 2 ^ k * 2 ^ k).
      { unfold u64. rewrite Z.shiftl_mul_pow2 by lia.
        assert (P : 0 < 2 ^ k) by (apply Z.pow_pos_nonneg; lia).
        rewrite (Z.mod_small (0xffffFFFF * 2 ^ k)).
        - transitivity (Z.land (t mod 2 ^ 32 / 2 ^ k * 2 ^ k + t mod 2 ^ 32 mod 2 ^ k) (0xffffFFFF * 2 ^ k + 0)).
          { f_equal; [pose proof (Z.div_mod (t mod 2 ^ 32) (2 ^ k) ltac:(lia)) as DM; rewrite DM at 1; ring|rewrite Z.add_0_r; reflexivity]. }
          rewrite land_split by (try apply Z.mod_pos_bound; lia).
          rewrite Z.land_0_r, Z.add_0_r. f_equal. change 0xffffFFFF with (2 ^ 32 - 1). rewrite land_mask by lia. apply Z.mod_small.
          assert (0 <= t mod 2 ^ 32 < 2 ^ 32) by (apply Z.mod_pos_bound; lia).
          split; [apply Z.div_pos; lia|apply Z.div_lt_upper_bound; [lia|]].
          apply Z.lt_le_trans with (1 * 2 ^ 32); [lia|]. apply Z.mul_le_mono_nonneg_r; lia.
        - split; [lia|]. assert (2 ^ k <= 2 ^ 31) by (apply Z.pow_le_mono_r; lia). lia. }
      rewrite L in Er. clear L.
      assert (P2 : exists c, 2 ^ 32 = c * 2 ^ k).
      { exists (2 ^ (32 - k)). rewrite <- Z.pow_add_r by lia. f_equal. lia. }
      destruct P2 as [c Pc]. assert (P : 0 < 2 ^ k) by (apply Z.pow_pos_nonneg; lia).
      set (q := t mod 2 ^ 32) in *. set (h := t / 2 ^ 32) in *.
      assert (Et : t = h * 2 ^ 32 + q) by (unfold h, q; lia). assert (Hq : 0 <= q < 2 ^ 32) by (unfold q; lia). clearbody q h.
      assert (Dq : q / 2 ^ k * 2 ^ k <= q < q / 2 ^ k * 2 ^ k + 2 ^ k).
      { pose proof (Z.div_mod q (2 ^ k) ltac:(lia)). pose proof (Z.mod_pos_bound q (2 ^ k) ltac:(lia)). lia. }
      assert (Dp : 0 <= q / 2 ^ k * 2 ^ k) by (apply Z.mul_nonneg_nonneg; [apply Z.div_pos; lia|lia]).
      split; [|split; [lia|]].
      * rewrite Er, Pc. rewrite Z.mul_assoc, <- Z.mul_add_distr_r. apply Z.mod_mul. lia.
      * rewrite Er. replace ((h * 2 ^ 32 + q / 2 ^ k * 2 ^ k) / 2 ^ 32) with h by (clear - Dq Dp Hq; lia). reflexivity.
    + replace k with 32 by (unfold k; lia). rewrite Z.land_0_r in Er. lia.
Qed.
(** Which clock is asked: the coarse one exactly when its resolution, a number of nanoseconds, is at
    most the argument, or the weight of the cleared bits when the argument is negative. *)
Theorem C53_choice : forall resolution grain, 0 <= resolution < 2 ^ 32 -> -2 ^ 31 <= grain < 2 ^ 31 ->
  ((0 <= grain /\ resolution <= grain) \/ (grain < 0 /\ resolution <= 2 ^ (- grain)) ->
     forall fine fine' coarse, fptu_now resolution fine coarse grain = fptu_now resolution fine' coarse grain) /\
  ((0 <= grain /\ grain < resolution) \/ (grain < 0 /\ 2 ^ (- grain) < resolution) ->
     forall fine coarse coarse', fptu_now resolution fine coarse grain = fptu_now resolution fine coarse' grain).
Proof.
  intros res grain Hr Hg.
  assert (G : now_grain grain >=? res = true <-> (0 <= grain /\ res <= grain) \/ (grain < 0 /\ res <= 2 ^ (- grain))).
  { unfold now_grain. destruct (Z.ltb_spec grain 0) as [L|L].
    - destruct (Z.gtb_spec grain (-32)) as [M|M].
      + rewrite Z.shiftl_mul_pow2, Z.mul_1_l by lia. unfold u32.
        assert (2 ^ (- grain) <= 2 ^ 31) by (apply Z.pow_le_mono_r; lia). assert (0 < 2 ^ (- grain)) by (apply Z.pow_pos_nonneg; lia).
        rewrite Z.mod_small by (change (2 ^ 32) with (2 * 2 ^ 31); lia). lia.
      + assert (2 ^ 32 <= 2 ^ (- grain)) by (apply Z.pow_le_mono_r; lia). change (2 ^ 64) with (2 ^ 32 * 2 ^ 32). lia.
    - unfold u32. rewrite Z.mod_small by lia. lia. }
  split.
  - intros H fine fine' coarse. apply G in H. unfold fptu_now. rewrite H. reflexivity.
  - intros H fine coarse coarse'. destruct (now_grain grain >=? res) eqn:E; [exfalso; destruct (proj1 G eq_refl) as [X|X], H as [Y|Y]; lia|]. unfold fptu_now. rewrite E. reflexivity.
Qed.
(** without a coarse clock the precise one is asked whenever any of the fraction is wanted *)
Corollary C53_no_coarse_clock : forall res grain, fst (clock_init res) = false -> -32 < grain < 2 ^ 31 ->
  forall fine coarse coarse', fptu_now (snd (clock_init res)) fine coarse grain = fptu_now (snd (clock_init res)) fine coarse' grain.
Proof.
  intros res grain H Hg fine coarse coarse'.
  assert (E : snd (clock_init res) = 2 ^ 32 - 1) by (unfold clock_init in *; destruct res as [[sec nsec]|]; [destruct (sec =? 0); [discriminate|]|]; reflexivity).
  rewrite E. apply C53_choice; [lia|lia|]. destruct (Z.lt_ge_cases grain 0) as [L|L]; [right|left; lia]. split; [exact L|].
  assert (2 ^ (- grain) <= 2 ^ 31) by (apply Z.pow_le_mono_r; lia). lia.
Qed.
(** The weight of the cleared bits is taken for nanoseconds, though a unit of the fraction is less
    than a quarter of one.  So the coarse clock is asked for steps it cannot give: here with a clock
    that steps each 4 ms, the answer for a step of about 1 ms is 3 steps old. *)
Theorem C53_step_refuted : exists resolution fine coarse grain, let step := 2 ^ (- grain) in
  grain < 0 /\ step * 1000000000 / 2 ^ 32 < resolution / 4 /\
  coarse <= fine /\ (fine - coarse) * 1000000000 / 2 ^ 32 < resolution /\
  fptu_now resolution fine coarse grain + 3 * step <= fine.
Proof.
  exists 4000000, (0x5FFFFFFF80000000 + 4 * 2 ^ 22 - 1), 0x5FFFFFFF80000000, (-22). vm_compute. repeat split; congruence.
Qed.
Example C53_case : fptu_now 4000000 0x5FFFFFFF89ABCDEF 0x5FFFFFFF80000000 (-16) = 0x5FFFFFFF89AB0000.
Proof. vm_compute. reflexivity. Qed.

(** ** C27. Binary comparison is a total order *)
Theorem C27_lexicographic : forall mc l r, conforming mc ->
  (fptu_cmp_binary mc l r = Llt <-> lexlt l r) /\
  (fptu_cmp_binary mc l r = Leq <-> l = r) /\
  (fptu_cmp_binary mc l r = Lgt <-> lexlt r l).
Proof. exact cmp_binary_spec. Qed.
Theorem C27_total_order : forall mc, conforming mc ->
  (forall l, fptu_cmp_binary mc l l = Leq) /\
  (forall l r, fptu_cmp_binary mc l r = Llt <-> fptu_cmp_binary mc r l = Lgt) /\
  (forall l r t, fptu_cmp_binary mc l r = Llt -> fptu_cmp_binary mc r t = Llt -> fptu_cmp_binary mc l t = Llt) /\
  (forall l r, fptu_cmp_binary mc l r <> Lic) /\
  (forall p b r, fptu_cmp_binary mc p (p ++ b :: r) = Llt).
Proof.
  intros mc C. split; [|split; [|split; [|split]]].
  - intros l. apply (cmp_binary_spec mc l l C). reflexivity.
  - intros l r. rewrite (proj1 (cmp_binary_spec mc l r C)), (proj2 (proj2 (cmp_binary_spec mc r l C))). reflexivity.
  - intros l r t A B. apply (cmp_binary_spec mc l t C). apply (cmp_binary_spec mc l r C) in A. apply (cmp_binary_spec mc r t C) in B.
    exact (lexlt_trans _ _ _ A B).
  - intros l r. unfold fptu_cmp_binary, diff2lge, cmp2lge. destruct (_ =? _); [discriminate|]. destruct (_ <? _); discriminate.
  - intros p b r. apply (cmp_binary_spec mc p (p ++ b :: r) C). induction p as [|a p IH]; [constructor|apply lx_tail; exact IH].
Qed.
(** fields of fixed width: same order, on equal lengths *)
Theorem C27_fixed_width : forall mc l r, conforming mc -> length l = length r ->
  (cmpbin mc l r = Llt <-> lexlt l r) /\ (cmpbin mc l r = Leq <-> l = r) /\ (cmpbin mc l r = Lgt <-> lexlt r l).
Proof.
  intros mc l r C E. destruct (C l r E) as (A & B & D). unfold cmpbin, diff2lge, cmp2lge.
  rewrite <- A, <- B, <- D. destruct (mc l r =? 0) eqn:E1; [|destruct (mc l r <? 0) eqn:E2]; repeat split; intros; try discriminate; try reflexivity; lia.
Qed.
(** a missing field equals the empty value and is incomparable with any other *)
Theorem C27_missing_field : forall mc r, conforming mc ->
  (fptu_cmp_opaque mc None r = Leq <-> r = []) /\ (fptu_cmp_opaque mc None r = Lic <-> r <> []) /\
  forall l, fptu_cmp_opaque mc (Some l) r = Leq <-> l = r.
Proof.
  intros mc r C. split; [|split].
  - destruct r; cbn; split; congruence.
  - destruct r; cbn; split; congruence.
  - intros l. apply (cmp_binary_spec mc l r C).
Qed.

(** ** C51. Comparison routines of the Elbrus port *)
(** The replacement of memcmp conforms to the C standard whatever the addresses: it has the sign of
    the first difference. *)
Theorem C51_memcmp_conforms : forall m s1 s2 n, bytes_mem m -> 0 <= n ->
  let l := bytes_at m s1 (Z.to_nat n) in let r := bytes_at m s2 (Z.to_nat n) in
  (e2k_memcmp m s1 s2 n < 0 <-> lexlt l r) /\ (e2k_memcmp m s1 s2 n = 0 <-> l = r) /\ (0 < e2k_memcmp m s1 s2 n <-> lexlt r l).
Proof. intros m s1 s2 n H Hn. apply says_iff. apply e2k_memcmp_says; assumption. Qed.
Theorem C51_strcmp_conforms : forall m a b l r fuel, bytes_mem m -> cstr m a l -> cstr m b r -> (length l < fuel)%nat ->
  exists d, e2k_strcmp fuel m a b = Some d /\ (d < 0 <-> lexlt l r) /\ (d = 0 <-> l = r) /\ (0 < d <-> lexlt r l).
Proof.
  intros m a b l r fuel H Ca Cb Hf. destruct (strcmp_says m H l r a b fuel Ca Cb Hf) as (d & E & S).
  exists d. split; [exact E|]. apply says_iff. exact S.
Qed.
Theorem C51_strncmp_conforms : forall m a b l r n, bytes_mem m -> cstr m a l -> cstr m b r ->
  let d := e2k_strncmp n m a b in
  (d < 0 <-> lexlt (firstn n l) (firstn n r)) /\ (d = 0 <-> firstn n l = firstn n r) /\ (0 < d <-> lexlt (firstn n r) (firstn n l)).
Proof. intros m a b l r n H Ca Cb. apply says_iff. apply strncmp_says; assumption. Qed.
Theorem C51_strlen_exact : forall m a l fuel, cstr m a l -> (length l < fuel)%nat ->
  e2k_strlen fuel m a 0 = Some (Z.of_nat (length l)) /\
  forall k, e2k_strnlen k m a 0 = Z.of_nat (Nat.min k (length l)).
Proof. intros m a l fuel C Hf. split; [rewrite (strlen_exact m l a fuel 0 C Hf); reflexivity|intros k; rewrite (strnlen_exact m l a k 0 C); reflexivity]. Qed.
(** reads of memcmp stay inside the two ranges: bytes outside do not matter *)
Theorem C51_memcmp_inside : forall m m' s1 s2 n, bytes_mem m -> bytes_mem m' -> 0 <= n ->
  (forall i, 0 <= i < n -> m (s1 + i) = m' (s1 + i) /\ m (s2 + i) = m' (s2 + i)) ->
  (e2k_memcmp m s1 s2 n < 0 <-> e2k_memcmp m' s1 s2 n < 0) /\ (e2k_memcmp m s1 s2 n = 0 <-> e2k_memcmp m' s1 s2 n = 0).
Proof.
  intros m m' s1 s2 n H H' Hn E.
  assert (B : forall k a, (forall i, 0 <= i < Z.of_nat k -> m (a + i) = m' (a + i)) -> bytes_at m a k = bytes_at m' a k).
  { induction k as [|k IH]; intros a Q; [reflexivity|]. cbn [bytes_at]. f_equal.
    - pose proof (Q 0 ltac:(lia)) as Q0. rewrite Z.add_0_r in Q0. exact Q0.
    - apply IH. intros i Hi. replace (a + 1 + i) with (a + (i + 1)) by lia. apply Q. lia. }
  destruct (C51_memcmp_conforms m s1 s2 n H Hn) as (A1 & A2 & _). destruct (C51_memcmp_conforms m' s1 s2 n H' Hn) as (B1 & B2 & _).
  rewrite A1, A2, B1, B2.
  rewrite <- (B (Z.to_nat n) s1), <- (B (Z.to_nat n) s2) by (intros i Hi; apply E; lia). split; reflexivity.
Qed.
Definition two_runs : bmem := fun x => if x =? 1060 then 7 else if x =? 2060 then 9 else x mod 1000 mod 256.
Example C51_case : bytes_mem two_runs /\ e2k_memcmp two_runs 1003 2003 60 < 0 /\ e2k_memcmp two_runs 1003 2003 57 = 0 /\
  e2k_memcmp two_runs 2003 1003 61 > 0 /\ e2k_memcmp two_runs 1003 2005 47 < 0.
Proof. split; [intros x; unfold two_runs; destruct (_ =? _); [lia|destruct (_ =? _); lia]|]. repeat split; vm_compute; congruence. Qed.
Example C51_case_str : let m := fun x => nth (Z.to_nat x) [65; 66; 0; 65; 67; 0] 0 in cstr m 0 [65; 66] /\ cstr m 3 [65; 67] /\ e2k_strcmp 9 m 0 3 = Some (-1).
Proof. cbn. repeat split; discriminate. Qed.

(** the premise of C27 is met, among others, by the replacement just verified: place both sequences
    in memory one after the other *)
Definition laid (l r : list Z) : bmem := fun x => nth (Z.to_nat x) (l ++ r) 0.
Definition e2k_mc (l r : list Z) : Z :=
  let l := map (fun x => x mod 256) l in let r := map (fun x => x mod 256) r in
  e2k_memcmp (laid l r) 0 (Z.of_nat (length l)) (Z.of_nat (length l)).
Example C27_case : fptu_cmp_binary e2k_mc [1; 2; 3] [1; 2; 200] = Llt /\ fptu_cmp_binary e2k_mc [1; 2; 3] [1; 2] = Lgt /\
  fptu_cmp_binary e2k_mc [250; 2] [250; 2] = Leq.
Proof. repeat split; vm_compute; reflexivity. Qed.
Fixpoint first_difference (l r : list Z) : Z :=
  match l, r with a :: l, b :: r => if a =? b then first_difference l r else a - b | _, _ => 0 end.
Example C27_conforming_exists : conforming first_difference.
Proof.
  intros l. induction l as [|a l IH]; intros [|b r] E; try discriminate E; cbn [first_difference].
  - apply says_iff. right; left. split; reflexivity.
  - injection E as E. specialize (IH r E). apply says_iff. destruct (a =? b) eqn:Q.
    + replace b with a by lia. apply (says_same _ [a]). destruct IH as (A & B & C).
      destruct (Z.lt_total (first_difference l r) 0) as [L|[L|L]]; [left|right; left|right; right]; split; tauto.
    + destruct (Z.lt_total a b) as [L|[L|L]]; [left; split; [lia|constructor; exact L]|lia|right; right; split; [lia|constructor; exact L]].
Qed.

(** ** C28. String views *)
(** shorter first (nil is shorter than empty), then bytewise *)
Definition sv_lt (m : bmem) (a b : sview) : Prop :=
  sv_len a < sv_len b \/ (sv_len a = sv_len b /\ lexlt (sv_bytes m a) (sv_bytes m b)).
Theorem C28_compare_exact : forall mc m a b, conforming mc ->
  (sv_compare mc m a b < 0 <-> sv_lt m a b) /\
  (sv_compare mc m a b = 0 <-> sv_len a = sv_len b /\ sv_bytes m a = sv_bytes m b) /\
  (0 < sv_compare mc m a b <-> sv_lt m b a).
Proof.
  intros mc m a b C. unfold sv_compare, sv_lt. destruct (sv_len a - sv_len b =? 0) eqn:E; cbn [negb].
  - assert (L : sv_len a = sv_len b) by lia.
    assert (SL : sv_length a = sv_length b) by (unfold sv_length; rewrite L; reflexivity).
    assert (Eb : bytes_at m (sv_str b) (Z.to_nat (sv_length a)) = sv_bytes m b) by (unfold sv_bytes; rewrite SL; reflexivity).
    rewrite Eb.
    assert (Len : length (sv_bytes m a) = length (sv_bytes m b)) by (unfold sv_bytes; rewrite !bytes_at_length; congruence).
    destruct (sv_str a =? sv_str b) eqn:P.
    + assert (Es : sv_bytes m a = sv_bytes m b) by (unfold sv_bytes; rewrite SL; f_equal; lia). rewrite Es.
      pose proof (lexlt_irrefl (sv_bytes m b)) as N. split; [|split]; (split; [intros Q; try (exfalso; clear - Q; lia); auto|intros Q; first [reflexivity|exfalso; destruct Q as [Q|[_ Q]]; [lia|contradiction]]]).
    + destruct (C _ _ Len) as (C1 & C2 & C3). rewrite C1, C2, C3. split; [|split].
      * split; [intros Q; right; auto|intros [Q|[_ Q]]; [lia|exact Q]].
      * split; [intros Q; auto|intros [_ Q]; exact Q].
      * split; [intros Q; right; auto|intros [Q|[_ Q]]; [lia|exact Q]].
  - repeat split; intros; lia.
Qed.
Theorem C28_total_order : forall mc m, conforming mc ->
  (forall a, sv_compare mc m a a = 0) /\
  (forall a b, sv_compare mc m a b < 0 <-> 0 < sv_compare mc m b a) /\
  (forall a b c, sv_compare mc m a b < 0 -> sv_compare mc m b c < 0 -> sv_compare mc m a c < 0) /\
  (forall a b c, sv_compare mc m a b = 0 -> sv_compare mc m b c = 0 -> sv_compare mc m a c = 0).
Proof.
  intros mc m C. split; [|split; [|split]].
  - intros a. apply (C28_compare_exact mc m a a C). auto.
  - intros a b. rewrite (proj1 (C28_compare_exact mc m a b C)), (proj2 (proj2 (C28_compare_exact mc m b a C))). reflexivity.
  - intros a b c. rewrite !(fun x y => proj1 (C28_compare_exact mc m x y C)). unfold sv_lt.
    intros [A|[A1 A2]] [B|[B1 B2]]; try (left; lia). right. split; [lia|exact (lexlt_trans _ _ _ A2 B2)].
  - intros a b c. rewrite !(fun x y => proj1 (proj2 (C28_compare_exact mc m x y C))). intros [A1 A2] [B1 B2]. split; congruence.
Qed.
(** views that compare equal hash equally *)
Theorem C28_hash_consistent : forall mc m a b, conforming mc -> sv_compare mc m a b = 0 -> sv_hash m a = sv_hash m b.
Proof.
  intros mc m a b C H. apply (C28_compare_exact mc m a b C) in H. destruct H as [H1 H2]. unfold sv_hash. rewrite H1, H2. reflexivity.
Qed.
(** nil has no bytes; a view has the length it was made with; hashes are 64-bit numbers *)
Theorem C28_length : forall m p n, p <> 0 -> 0 <= n ->
  sv_length sv_nil = 0 /\ sv_bytes m sv_nil = [] /\ sv_length (sv_make p n) = n /\
  Z.of_nat (length (sv_bytes m (sv_make p n))) = n /\ (forall i, (i < Z.to_nat n)%nat -> nth i (sv_bytes m (sv_make p n)) (-1) = m (p + Z.of_nat i)).
Proof.
  intros m p n Hp Hn. unfold sv_make. replace (p =? 0) with false by lia.
  assert (L : sv_length (mkSV p n) = n) by (unfold sv_length; cbn [sv_len]; destruct (Z.geb_spec n 0); lia).
  unfold sv_bytes. rewrite L. cbn [sv_str].
  assert (B : forall k a, length (bytes_at m a k) = k /\ forall i, (i < k)%nat -> nth i (bytes_at m a k) (-1) = m (a + Z.of_nat i)).
  { induction k as [|k IH]; intros a; [split; [reflexivity|lia]|]. destruct (IH (a + 1)) as [I1 I2]. cbn [bytes_at length]. split; [lia|].
    intros [|i] Hi; cbn [nth]; [f_equal; lia|]. rewrite I2 by lia. f_equal. lia. }
  destruct (B (Z.to_nat n) p) as [B1 B2]. split; [reflexivity|]. split; [reflexivity|]. split; [reflexivity|]. split; [lia|exact B2].
Qed.
Theorem C28_hash_range : forall m v, 0 <= sv_hash m v < 2 ^ 64.
Proof.
  intros m v. unfold sv_hash. cbv zeta.
  assert (F : forall l h, 0 <= h < 2 ^ 64 -> 0 <= fold_left (fun h c => u64 (Z.lxor h (u64 (sgn 8 c)) * 1664525 + 1013904223)) l h < 2 ^ 64).
  { induction l as [|c l IH]; intros h Hh; cbn [fold_left]; [exact Hh|]. apply IH. unfold u64. apply Z.mod_pos_bound. reflexivity. }
  assert (I : 0 <= u64 (sv_len v * 3977471) < 2 ^ 64) by (apply Z.mod_pos_bound; reflexivity).
  specialize (F (sv_bytes m v) _ I). set (h := fold_left _ _ _) in *. clearbody h.
  assert (J : 0 <= u64 (3863194411 * Z.shiftr h 11) < 2 ^ 64) by (apply Z.mod_pos_bound; reflexivity). clear I. set (g := u64 (3863194411 * Z.shiftr h 11)) in *. clearbody g.
  assert (N : 0 <= Z.lxor h g) by (apply Z.lxor_nonneg; lia). split; [exact N|].
  destruct (Z.eq_dec (Z.lxor h g) 0) as [->|NZ]; [reflexivity|]. apply Z.log2_lt_pow2; [lia|].
  eapply Z.le_lt_trans; [apply Z.log2_lxor; lia|].
  assert (X : forall x, 0 <= x < 2 ^ 64 -> Z.log2 x < 64).
  { intros x Hx. destruct (Z.eq_dec x 0) as [->|]; [reflexivity|]. apply Z.log2_lt_pow2; lia. }
  apply Z.max_lub_lt; apply X; assumption.
Qed.
(** nil is not the empty string, and comes before it; a null pointer always makes nil *)
Theorem C28_nil_distinct : forall mc m p n, conforming mc -> p <> 0 -> 0 <= n ->
  sv_compare mc m sv_nil (sv_make p n) < 0 /\ (forall k, sv_make 0 k = sv_nil).
Proof.
  intros mc m p n C Hp Hn. split; [|reflexivity]. apply (C28_compare_exact mc m _ _ C). left. unfold sv_make, sv_nil.
  replace (p =? 0) with false by lia. cbn [sv_len]. lia.
Qed.
Example C28_case : let m := two_runs in
  sv_compare first_difference m (sv_make 1003 60) (sv_make 2003 60) < 0 /\ sv_compare first_difference m (sv_make 1003 57) (sv_make 2003 57) = 0 /\
  sv_hash m (sv_make 1003 57) = sv_hash m (sv_make 2003 57) /\ sv_hash m (sv_make 1003 60) <> sv_hash m (sv_make 2003 60).
Proof. repeat split; vm_compute; congruence. Qed.

(** ** C52. Hexadecimal dump *)
Definition hex_value (c : Z) : Z := if (48 <=? c) && (c <=? 57) then c - 48 else if (97 <=? c) && (c <=? 102) then c - 87 else -1.
Fixpoint unhex (l : list Z) : list Z :=
  match l with a :: b :: l => (hex_value a * 16 + hex_value b) :: unhex l | _ => [] end.
(** two lowercase digits per byte, most significant first, from which the bytes can be read back *)
Theorem C52_dump_is_faithful : forall l, allb l ->
  length (hexadecimal l) = (2 * length l)%nat /\
  (forall c, In c (hexadecimal l) -> 48 <= c <= 57 \/ 97 <= c <= 102) /\
  unhex (hexadecimal l) = l.
Proof.
  intros l H.
  assert (D : forall d, 0 <= d < 16 -> (48 <= hex_digit d <= 57 \/ 97 <= hex_digit d <= 102) /\ hex_value (hex_digit d) = d).
  { intros d Hd. unfold hex_digit, hex_value. destruct (d <? 10) eqn:E.
    - split; [lia|]. replace ((48 <=? d + 48) && (d + 48 <=? 57)) with true by lia. lia.
    - split; [lia|]. replace ((48 <=? d - 10 + 97) && (d - 10 + 97 <=? 57)) with false by lia.
      replace ((97 <=? d - 10 + 97) && (d - 10 + 97 <=? 102)) with true by lia. lia. }
  induction l as [|b l IH]; [split; [reflexivity|split; [intros c []|reflexivity]]|].
  assert (Hb : 0 <= b < 256) by (apply H; left; reflexivity).
  destruct (IH (fun x I => H x (or_intror I))) as (I1 & I2 & I3). clear IH H.
  cbn [hexadecimal]. rewrite Z.shiftr_div_pow2 by lia. change 15 with (2 ^ 4 - 1). rewrite land_mask by lia.
  destruct (D (b / 2 ^ 4) ltac:(lia)) as [A1 A2]. destruct (D (b mod 2 ^ 4) ltac:(lia)) as [B1 B2]. split; [|split].
  - cbn [length]. lia.
  - intros c [<-|[<-|I]]; [exact A1|exact B1|apply I2; exact I].
  - cbn [unhex]. rewrite A2, B2, I3. f_equal. lia.
Qed.
Example C52_case : hexadecimal [0; 255; 26] = [48; 48; 102; 102; 49; 97].
Proof. reflexivity. Qed.

Print Assumptions C26_seconds_exact_fraction_within_one.
Print Assumptions C26_order_kept.
Print Assumptions C26_timespec.
Print Assumptions C26_timeval.
Print Assumptions C26_filetime.
Print Assumptions C26_unit_can_be_lost.
Print Assumptions C53_low_bits_cleared.
Print Assumptions C27_lexicographic.
Print Assumptions C27_total_order.
Print Assumptions C27_fixed_width.
Print Assumptions C27_missing_field.
Print Assumptions C51_memcmp_conforms.
Print Assumptions C51_strcmp_conforms.
Print Assumptions C51_strncmp_conforms.
Print Assumptions C51_strlen_exact.
Print Assumptions C51_memcmp_inside.
Print Assumptions C28_compare_exact.
Print Assumptions C28_total_order.
Print Assumptions C28_hash_consistent.
Print Assumptions C28_nil_distinct.
Print Assumptions C52_dump_is_faithful.
Print Assumptions C26_named_units.
Print Assumptions C26_late_time_refuted.
Print Assumptions C53_choice.
Print Assumptions C53_no_coarse_clock.
Print Assumptions C53_step_refuted.
Print Assumptions C28_length.
Print Assumptions C28_hash_range.

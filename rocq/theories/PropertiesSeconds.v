(** * PropertiesSeconds: C96, times as numbers of seconds in a double, and the order of times. *)
From Coq Require Import List.
From Verif Require Import Base Values Numeric NumericProofs RoundProofs Seconds.
From Coq Require Import ZifyBool ZifyNat.

(** ** The number [n / 2^32] rounded to a double, in units of 2^-32 *)
Definition kept (n : Z) : Z := if n <? 2 ^ 53 then n else rne n (Z.log2 n - 52) * 2 ^ (Z.log2 n - 52).
(** [v] is the number n / 2^32 *)
Definition stands (v : fval) (n : Z) : Prop := exists a e, v = FFin false a e /\ 0 <= a /\ -1074 <= e <= -1 /\ a * 2 ^ (e + 1074) = n * 2 ^ 1042.
Lemma pow_pos k : 0 <= k -> 0 < 2 ^ k. Proof. intros. apply Z.pow_pos_nonneg; lia. Qed.
Lemma stands_cmp v w n m : stands v n -> stands w m -> fcmp v w = Some (n ?= m).
Proof.
  intros (a & e & -> & A & E & V) (b & f & -> & B & F & W). cbn [fcmp]. f_equal. rewrite (cmp_scale _ _ _ _ _ _ (-1074)) by lia. unfold smant.
  replace (e - -1074) with (e + 1074) by lia. replace (f - -1074) with (f + 1074) by lia. rewrite V, W. symmetry. apply Zmult_compare_compat_r. pose proof (pow_pos 1042). lia.
Qed.
Lemma stands_exact n : 0 <= n -> stands (FFin false n (-32)) n.
Proof. intros. exists n, (-32). repeat split; try lia. Qed.
Lemma stands_trunc v n : stands v n -> ftrunc v = Some (n / 2 ^ 32).
Proof.
  intros (a & e & -> & A & E & V). unfold ftrunc, smant. destruct (Z.leb_spec 0 e); [lia|]. f_equal.
  pose proof (pow_pos (e + 1074) ltac:(lia)). pose proof (pow_pos (- e) ltac:(lia)). pose proof (pow_pos 1042 ltac:(lia)). pose proof (pow_pos 32 ltac:(lia)).
  rewrite <- (Z.div_mul_cancel_r a (2 ^ - e) (2 ^ (e + 1074))) by lia. rewrite V. rewrite <- Z.pow_add_r by lia. replace (- e + (e + 1074)) with (32 + 1042) by lia. rewrite (Z.pow_add_r 2 32 1042) by lia.
  apply Z.div_mul_cancel_r; lia.
Qed.
Lemma rne_scale n d k : 0 <= d -> 0 < k -> rne (n * 2 ^ d) (k + d) = rne n k.
Proof.
  intros Hd Hk. unfold rne. destruct (Z.leb_spec (k + d) 0); [lia|]. destruct (Z.leb_spec k 0); [lia|]. cbv zeta.
  pose proof (pow_pos d Hd) as D. pose proof (pow_pos k ltac:(lia)) as K. replace (k + d - 1) with (k - 1 + d) by lia. rewrite !Z.pow_add_r by lia.
  rewrite Z.div_mul_cancel_r, Z.mul_mod_distr_r by lia. set (r := n mod 2 ^ k). set (h := 2 ^ (k - 1)). clearbody r h. set (z := 2 ^ d) in *. clearbody z.
  replace (r * z <? h * z) with (r <? h) by nia. replace (h * z <? r * z) with (h <? r) by nia. reflexivity.
Qed.
Lemma rne_whole n d k : 0 <= d -> k <= 0 -> k + d > 0 -> rne (n * 2 ^ d) (k + d) = n * 2 ^ (- k).
Proof.
  intros Hd Hk Hs. unfold rne. destruct (Z.leb_spec (k + d) 0); [lia|]. cbv zeta. replace (2 ^ d) with (2 ^ (- k) * 2 ^ (k + d)) by (rewrite <- Z.pow_add_r by lia; f_equal; lia).
  pose proof (pow_pos (k + d) ltac:(lia)). pose proof (pow_pos (k + d - 1) ltac:(lia)). rewrite Z.mul_assoc, Z.div_mul, Z.mod_mul by lia. replace (0 <? 2 ^ (k + d - 1)) with true by lia. reflexivity.
Qed.
Lemma log_range n : 0 < n < 2 ^ 64 -> 0 <= Z.log2 n <= 63 /\ 2 ^ Z.log2 n <= n < 2 * 2 ^ Z.log2 n.
Proof.
  intros [H1 H2]. destruct (Z.log2_spec n H1) as [A B]. pose proof (Z.log2_nonneg n). apply Z.log2_lt_pow2 in H2; [|lia]. rewrite Z.pow_succ_r in B by lia. lia.
Qed.
Lemma small_log n : 0 < n -> (n <? 2 ^ 53) = (Z.log2 n <=? 52).
Proof.
  intros H. destruct (Z.log2_spec n H) as [A B]. destruct (Z.leb_spec (Z.log2 n) 52) as [L|L].
  - assert (2 ^ Z.succ (Z.log2 n) <= 2 ^ 53) by (apply Z.pow_le_mono_r; lia). lia.
  - assert (2 ^ 53 <= 2 ^ Z.log2 n) by (apply Z.pow_le_mono_r; lia). lia.
Qed.
Lemma rounded_shape n d : 0 <= n < 2 ^ 64 -> 0 <= d -> exists a e, rounded (FFin false (n * 2 ^ d) (-32 - d)) = FFin false a e /\ 0 <= a /\ -1074 <= e <= Z.log2 n - 83 /\ a * 2 ^ (e + 1074) = kept n * 2 ^ 1042.
Proof.
  intros Hn Hd. unfold rounded, enc. pose proof (pow_pos d Hd) as D. destruct (Z.eq_dec n 0) as [->|N].
  { exists 0, (-1074). repeat split; cbn; try lia. }
  destruct (Z.eqb_spec (n * 2 ^ d) 0) as [Q|_]; [nia|]. cbv zeta. rewrite Z.log2_mul_pow2 by lia. change (f_p binary64) with 53. change (f_emin binary64) with (-1074).
  destruct (log_range n ltac:(lia)) as [L _]. pose proof (small_log n ltac:(lia)) as SL. set (l := Z.log2 n) in *.
  replace (Z.max (d + l + (-32 - d) - (53 - 1)) (-1074)) with (l - 84) by lia. replace (l - 84 - (-32 - d)) with (l - 52 + d) by lia.
  set (r := rne (n * 2 ^ d) (l - 52 + d)).
  assert (R : r = if l <=? 52 then n * 2 ^ (52 - l) else rne n (l - 52)).
  { unfold r. destruct (Z.leb_spec l 52) as [C|C]; [|apply rne_scale; lia].
    destruct (Z.le_gt_cases (l - 52 + d) 0) as [C2|C2].
    - unfold rne. destruct (Z.leb_spec (l - 52 + d) 0); [|lia]. rewrite <- Z.mul_assoc, <- Z.pow_add_r by lia. do 2 f_equal. lia.
    - rewrite rne_whole by lia. do 2 f_equal. lia. }
  destruct (rne_bounds (n * 2 ^ d) (l - 52 + d) 52 ltac:(nia) ltac:(lia)) as [R0 R1]; [rewrite Z.log2_mul_pow2 by lia; fold l; lia|].
  fold r in R0, R1. rewrite Z.log2_mul_pow2 in R1 by lia. fold l in R1. specialize (R1 ltac:(lia)).
  change (53 - 1) with 52. change (f_inf binary64) with (2047 * 2 ^ 52). rewrite Z.min_r by lia.
  destruct (dec_made binary64 false (l - 84) r good64) as (a & e & E & V).
  - change (f_emin binary64) with (-1074). lia.
  - exact R0.
  - right. exact R1.
  - change (f_emin binary64) with (-1074). change (f_p binary64 - 1) with 52. change (f_inf binary64) with (2047 * 2 ^ 52). lia.
  - change (f_emin binary64) with (-1074) in E. change (f_p binary64 - 1) with 52 in E.
    change (if false then 2 ^ (f_w binary64 - 1) else 0) with 0 in *. rewrite E. exists a, e. split; [reflexivity|]. split; [lia|]. split; [lia|].
    assert (Q : a * 2 ^ (e + 1074) = r * 2 ^ (l - 52 + 1042)).
    { destruct V as [[-> ->]|[-> ->]]; [do 2 f_equal; lia|]. replace (l - 84 + 1 + 1074) with (1 + (l - 52 + 1042)) by lia. rewrite Z.pow_add_r by lia. change (2 ^ 1) with 2. ring. }
    rewrite Q. unfold kept. rewrite SL. fold l. rewrite R. destruct (Z.leb_spec l 52) as [C|C].
    + rewrite <- Z.mul_assoc, <- Z.pow_add_r by lia. do 2 f_equal. lia.
    + rewrite <- Z.mul_assoc, <- Z.pow_add_r by lia. reflexivity.
Qed.

Lemma rounded_stands n d : 0 <= n < 2 ^ 64 -> 0 <= d -> stands (rounded (FFin false (n * 2 ^ d) (-32 - d))) (kept n).
Proof.
  intros Hn Hd. destruct (rounded_shape n d Hn Hd) as (a & e & E & A & B & V). exists a, e. repeat split; try assumption; try lia.
  destruct (Z.eq_dec n 0) as [->|N]; [cbn in B; lia|]. destruct (log_range n ltac:(lia)). lia.
Qed.
Lemma time_parts t : 0 <= t < 2 ^ 64 -> t = utc_seconds t * 2 ^ 32 + fractional t /\ 0 <= fractional t < 2 ^ 32 /\ 0 <= utc_seconds t < 2 ^ 32.
Proof.
  intros H. unfold utc_seconds, fractional, u32. rewrite Z.shiftr_div_pow2 by lia. change 4294967296 with (2 ^ 32) in *. change (2 ^ 64) with (2 ^ 32 * 2 ^ 32) in H.
  pose proof (Z.div_mod t (2 ^ 32) ltac:(lia)) as D. pose proof (Z.mod_pos_bound t (2 ^ 32) ltac:(lia)) as M.
  assert (0 <= t / 2 ^ 32 < 2 ^ 32) by (split; [apply Z.div_pos; lia|apply Z.div_lt_upper_bound; lia]). rewrite (Z.mod_small (t / 2 ^ 32)) by lia. lia.
Qed.
(** a uint32_t as a double *)
Lemma word_shape u : 0 <= u < 2 ^ 32 -> exists d, 0 <= d /\ ((u = 0 /\ of_int binary64 u = FFin false 0 (-1074)) \/ (0 < u /\ d = 52 - Z.log2 u /\ of_int binary64 u = FFin false (u * 2 ^ d) (0 - d))).
Proof.
  intros H. destruct (Z.eq_dec u 0) as [->|N]; [exists 0; split; [lia|left; split; [reflexivity|vm_compute; reflexivity]]|].
  destruct (log_range u ltac:(lia)) as [L0 L]. assert (L1 : Z.log2 u <= 31) by (assert (Z.log2 u < 32) by (apply Z.log2_lt_pow2; lia); lia).
  exists (52 - Z.log2 u). split; [lia|]. right. split; [lia|]. split; [reflexivity|]. unfold of_int, int_bits. replace (u <? 0) with false by lia. rewrite Z.abs_eq by lia.
  rewrite (enc_dec binary64 false u 0 good64); [reflexivity|change (f_p binary64) with 53; lia| |].
  - change (f_emin binary64) with (-1074). change (f_p binary64) with 53. lia.
  - change (f_bias binary64) with 1023. lia.
Qed.
Lemma fraction_shape t : 0 <= t < 2 ^ 64 -> exists a e, fractional_seconds t = FFin false a e /\ 0 <= a /\ -1074 <= e <= -52 /\ a * 2 ^ (e + 1074) = fractional t * 2 ^ 1042.
Proof.
  intros H. destruct (time_parts t H) as (_ & F & _). unfold fractional_seconds. set (f := fractional t) in *. clearbody f.
  destruct (word_shape f F) as (d & D & [[-> ->]|(P & -> & ->)]).
  - exists 0, (-1074). repeat split; lia.
  - cbn [fldexp]. replace (0 - (52 - Z.log2 f) + -32) with (-32 - (52 - Z.log2 f)) by lia.
    destruct (rounded_shape f (52 - Z.log2 f) ltac:(lia) D) as (a & e & E & A & B & V). exists a, e. split; [exact E|]. split; [exact A|].
    assert (Z.log2 f < 32) by (apply Z.log2_lt_pow2; lia). split; [lia|]. rewrite V. unfold kept. replace (f <? 2 ^ 53) with true by lia. reflexivity.
Qed.
Lemma word_value u : 0 <= u < 2 ^ 32 -> exists a e, of_int binary64 u = FFin false a e /\ 0 <= a /\ -1074 <= e <= 0 /\ a * 2 ^ (e + 1074) = u * 2 ^ 1074.
Proof.
  intros H. destruct (word_shape u H) as (d & D & [[-> ->]|(P & E & ->)]).
  - exists 0, (-1074). repeat split; lia.
  - exists (u * 2 ^ d), (0 - d). pose proof (pow_pos d D). pose proof (Z.log2_nonneg u). repeat split; try lia. rewrite <- Z.mul_assoc, <- Z.pow_add_r by lia. do 2 f_equal. lia.
Qed.
Lemma seconds_is t : 0 <= t < 2 ^ 64 -> exists d, 0 <= d /\ seconds t = rounded (FFin false (t * 2 ^ d) (-32 - d)).
Proof.
  intros H. destruct (time_parts t H) as (T & F & U). unfold seconds. destruct (fraction_shape t H) as (a & e & -> & A & E & V). destruct (word_value _ U) as (b & g & -> & B & G & W).
  cbn [fadd smant]. set (m := Z.min e g). assert (M : -1074 <= m <= -52 /\ m <= e /\ m <= g) by (unfold m; lia). clearbody m. exists (-32 - m). split; [lia|].
  assert (Q : a * 2 ^ (e - m) + b * 2 ^ (g - m) = t * 2 ^ (-32 - m)).
  { apply (Z.mul_reg_r _ _ (2 ^ (m + 1074))); [pose proof (pow_pos (m + 1074) ltac:(lia)); lia|]. rewrite Z.mul_add_distr_r, <- !Z.mul_assoc, <- !Z.pow_add_r by lia.
    replace (e - m + (m + 1074)) with (e + 1074) by lia. replace (g - m + (m + 1074)) with (g + 1074) by lia. replace (-32 - m + (m + 1074)) with 1042 by lia.
    rewrite V, W. rewrite T at 3. change 1074 with (32 + 1042). rewrite Z.pow_add_r by lia. ring. }
  rewrite Q. pose proof (pow_pos (-32 - m) ltac:(lia)). replace (t * 2 ^ (-32 - m) <? 0) with false by nia. rewrite Z.abs_eq by nia. do 2 f_equal. lia.
Qed.
Lemma seconds_stands t : 0 <= t < 2 ^ 64 -> stands (seconds t) (kept t).
Proof. intros H. destruct (seconds_is t H) as (d & D & ->). apply rounded_stands; assumption. Qed.

(** ** The rounding *)
Lemma kept_small n : n < 2 ^ 53 -> kept n = n.
Proof. intros. unfold kept. replace (n <? 2 ^ 53) with true by lia. reflexivity. Qed.
Lemma kept_big n : 2 ^ 53 <= n -> let k := Z.log2 n - 52 in kept n = rne n k * 2 ^ k /\ 0 < k.
Proof. intros H. unfold kept. pose proof (small_log n ltac:(lia)). replace (n <? 2 ^ 53) with false by lia. split; [reflexivity|lia]. Qed.
Lemma kept_multiple n k c : 2 ^ 53 <= n -> k = Z.log2 n - 52 -> n = c * 2 ^ k -> kept n = n.
Proof.
  intros H -> E. destruct (kept_big n H) as [-> K]. destruct (rne_nearest n _ c K) as [_ N]. rewrite <- E, Z.sub_diag in N. lia.
Qed.
Lemma kept_bounds n : 2 ^ 53 <= n -> 2 ^ Z.log2 n <= kept n <= 2 * 2 ^ Z.log2 n.
Proof.
  intros H. destruct (kept_big n H) as [-> K]. destruct (rne_bounds n (Z.log2 n - 52) 52 ltac:(lia) ltac:(lia) ltac:(lia)) as [R1 R2]. specialize (R2 eq_refl).
  assert (E : 2 ^ Z.log2 n = 2 ^ 52 * 2 ^ (Z.log2 n - 52)) by (rewrite <- Z.pow_add_r by lia; f_equal; lia). rewrite E. pose proof (pow_pos (Z.log2 n - 52) ltac:(lia)). nia.
Qed.
Lemma rne_mono n m k : 0 < k -> n <= m -> rne n k <= rne m k.
Proof.
  intros K H. unfold rne. destruct (Z.leb_spec k 0); [lia|]. cbv zeta. pose proof (pow_pos k ltac:(lia)) as P.
  assert (E : 2 ^ k = 2 * 2 ^ (k - 1)) by (replace k with (1 + (k - 1)) at 1 by lia; rewrite Z.pow_add_r; lia).
  pose proof (Z.div_mod n (2 ^ k) ltac:(lia)). pose proof (Z.mod_pos_bound n (2 ^ k) P). pose proof (Z.div_mod m (2 ^ k) ltac:(lia)). pose proof (Z.mod_pos_bound m (2 ^ k) P).
  pose proof (Z.div_le_mono n m (2 ^ k) P H) as D. set (h := 2 ^ (k - 1)) in *. set (w := 2 ^ k) in *.
  destruct (Z.eq_dec (n / w) (m / w)) as [Q|Q].
  - rewrite <- Q in *. assert (n mod w <= m mod w) by lia. destruct (Z.even (n / w)); repeat match goal with |- context [?x <? ?y] => destruct (Z.ltb_spec x y) end; lia.
  - destruct (Z.even (n / w)), (Z.even (m / w)); repeat match goal with |- context [?x <? ?y] => destruct (Z.ltb_spec x y) end; lia.
Qed.
Lemma kept_mono n m : 0 <= n -> n <= m -> kept n <= kept m.
Proof.
  intros H0 H. destruct (Z.lt_ge_cases n (2 ^ 53)) as [C|C].
  - rewrite (kept_small n C). destruct (Z.lt_ge_cases m (2 ^ 53)) as [D|D]; [rewrite kept_small by lia; lia|].
    pose proof (kept_bounds m D). assert (2 ^ 53 <= 2 ^ Z.log2 m) by (apply Z.pow_le_mono_r; [lia|]; change 53 with (Z.log2 (2 ^ 53)); apply Z.log2_le_mono; lia). lia.
  - destruct (Z.eq_dec (Z.log2 n) (Z.log2 m)) as [Q|Q].
    + destruct (kept_big n C) as [-> K]. destruct (kept_big m ltac:(lia)) as [-> _]. rewrite <- Q. apply Z.mul_le_mono_nonneg_r; [pose proof (pow_pos (Z.log2 n - 52)); lia|]. apply rne_mono; lia.
    + pose proof (Z.log2_le_mono n m H). pose proof (kept_bounds n C). pose proof (kept_bounds m ltac:(lia)).
      assert (2 * 2 ^ Z.log2 n <= 2 ^ Z.log2 m) by (rewrite <- Z.pow_succ_r by apply Z.log2_nonneg; apply Z.pow_le_mono_r; lia). lia.
Qed.
Lemma kept_error n : 0 <= n < 2 ^ 64 -> Z.abs (kept n - n) <= 2 ^ 10.
Proof.
  intros H. destruct (Z.lt_ge_cases n (2 ^ 53)) as [C|C]; [rewrite kept_small by lia; lia|]. destruct (kept_big n C) as [-> K].
  destruct (rne_nearest n _ 0 K) as [N _]. destruct (log_range n ltac:(lia)) as [L _]. assert (2 ^ (Z.log2 n - 52) <= 2 ^ 11) by (apply Z.pow_le_mono_r; lia). change (2 ^ 11) with (2 * 2 ^ 10) in *. lia.
Qed.

(** ** C96: the fraction is exact *)
Theorem C96_fraction_exact : forall t, 0 <= t < 2 ^ 64 ->
  fcmp (fractional_seconds t) (FFin false (fractional t) (-32)) = Some Eq /\ flt (fractional_seconds t) (of_int binary64 1) = true.
Proof.
  intros t H. destruct (time_parts t H) as (_ & F & _). destruct (fraction_shape t H) as (a & e & E & A & B & V).
  assert (X : stands (fractional_seconds t) (fractional t)) by (exists a, e; repeat split; auto; lia). split.
  - rewrite (stands_cmp _ _ _ _ X (stands_exact (fractional t) ltac:(lia))), Z.compare_refl. reflexivity.
  - assert (O : stands (of_int binary64 1) (2 ^ 32)).
    { destruct (word_value 1 ltac:(lia)) as (a1 & e1 & E1 & A1 & B1 & V1). exists a1, e1. split; [exact E1|]. split; [exact A1|]. split.
      - vm_compute in E1. injection E1 as <- <-. lia.
      - rewrite V1. change 1074 with (32 + 1042). rewrite Z.pow_add_r by lia. ring. }
    unfold flt. rewrite (stands_cmp _ _ _ _ X O). destruct (Z.compare_spec (fractional t) (2 ^ 32)); lia || reflexivity.
Qed.
(** ** C96: no double is nearer to the time than seconds() *)
Theorem C96_seconds_nearest : forall t b, 0 <= t < 2 ^ 64 -> 0 <= b < 2 ^ 64 -> finite (dec binary64 b) = true ->
  nearer (FFin false t (-32)) (seconds t) (dec binary64 b).
Proof.
  intros t b H Hb F. destruct (seconds_is t H) as (d & D & S). pose proof (pow_pos d D) as Pd.
  destruct (seconds_stands t H) as (a & e & E & A & B & V).
  destruct (enc_nearest binary64 false (t * 2 ^ d) (-32 - d) b) as [N _].
  - right. reflexivity.
  - nia.
  - change (finite (rounded (FFin false (t * 2 ^ d) (-32 - d))) = true). rewrite <- S, E. reflexivity.
  - exact Hb.
  - exact F.
  - change (dec binary64 (enc binary64 ?x)) with (rounded x) in N. rewrite <- S, E in N. rewrite E. destruct (dec_shape binary64 b good64 Hb F) as (n2 & a2 & e2 & E2 & _). rewrite E2 in *.
    apply (nearer_down _ _ _ _ _ _ _ _ _ (Z.min (-32 - d) (Z.min e e2))); [lia|lia|lia|]. intros K HK. specialize (N K ltac:(lia) ltac:(lia) ltac:(lia)). cbn [smant] in *.
    replace (t * 2 ^ d * 2 ^ (-32 - d - K)) with (t * 2 ^ (-32 - K)) in N; [exact N|]. rewrite <- Z.mul_assoc, <- Z.pow_add_r by lia. do 2 f_equal. lia.
Qed.
(** less than a quarter of a microsecond away *)
Theorem C96_seconds_error : forall t, 0 <= t < 2 ^ 64 -> exists n, fcmp (seconds t) (FFin false n (-32)) = Some Eq /\ 0 <= n <= 2 ^ 64 /\ Z.abs (n - t) <= 2 ^ 10.
Proof.
  intros t H. exists (kept t). pose proof (kept_mono 0 t ltac:(lia) ltac:(lia)) as Q. change (kept 0) with 0 in Q. pose proof (kept_mono t (2 ^ 64) ltac:(lia) ltac:(lia)) as Q2. change (kept (2 ^ 64)) with (2 ^ 64) in Q2.
  rewrite (stands_cmp _ _ _ _ (seconds_stands t H) (stands_exact (kept t) ltac:(lia))), Z.compare_refl. pose proof (kept_error t H). auto with zarith.
Qed.
(** exactly the times whose low bits do not stick out are kept exactly *)
Theorem C96_seconds_exact : forall t, 0 <= t < 2 ^ 64 ->
  (fcmp (seconds t) (FFin false t (-32)) = Some Eq <-> utc_seconds t < 2 ^ 21 \/ fractional t mod 2 ^ (Z.log2 (utc_seconds t) - 20) = 0).
Proof.
  intros t H. rewrite (stands_cmp _ _ _ _ (seconds_stands t H) (stands_exact t ltac:(lia))). destruct (time_parts t H) as (T & F & U).
  assert (X : (Some (kept t ?= t) = Some Eq) <-> kept t = t) by (split; [intros Q; apply Z.compare_eq; congruence|intros ->; rewrite Z.compare_refl; reflexivity]). rewrite X. clear X.
  destruct (Z.lt_ge_cases (utc_seconds t) (2 ^ 21)) as [C|C].
  - assert (t < 2 ^ 53) by (change (2 ^ 53) with (2 ^ 21 * 2 ^ 32); nia). rewrite kept_small by lia. tauto.
  - assert (B : 2 ^ 53 <= t) by (change (2 ^ 53) with (2 ^ 21 * 2 ^ 32); nia).
    assert (L : Z.log2 t = Z.log2 (utc_seconds t) + 32).
    { destruct (log_range (utc_seconds t) ltac:(lia)) as [L1 L2]. apply Z.log2_unique; [lia|]. rewrite Z.pow_succ_r, !Z.pow_add_r by lia. nia. }
    destruct (kept_big t B) as [Ek K]. rewrite L in Ek, K. set (l := Z.log2 (utc_seconds t)) in *. replace (l + 32 - 52) with (l - 20) in * by lia.
    assert (L31 : l < 32) by (apply Z.log2_lt_pow2; lia). pose proof (pow_pos (l - 20) ltac:(lia)) as P.
    assert (E32 : 2 ^ 32 = 2 ^ (32 - (l - 20)) * 2 ^ (l - 20)) by (rewrite <- Z.pow_add_r by lia; f_equal; lia).
    assert (M : t mod 2 ^ (l - 20) = fractional t mod 2 ^ (l - 20)).
    { rewrite T at 1. rewrite E32, Z.mul_assoc, Z.add_comm, Z.mod_add by lia. reflexivity. }
    rewrite <- M. split.
    + intros Q. right. rewrite <- Q, Ek. apply Z.mod_mul. lia.
    + intros [Q|Q]; [lia|]. apply (kept_multiple t (l - 20) (t / 2 ^ (l - 20)) B); [lia|]. pose proof (Z.div_mod t (2 ^ (l - 20)) ltac:(lia)). lia.
Qed.
(** later times have no smaller number of seconds; more than 2^11 ticks (0.48 us) apart, a greater one *)
Theorem C96_seconds_order : forall t u, 0 <= t < 2 ^ 64 -> 0 <= u < 2 ^ 64 ->
  (t <= u -> fle (seconds t) (seconds u) = true) /\ (t + 2 ^ 11 < u -> flt (seconds t) (seconds u) = true).
Proof.
  intros t u Ht Hu. unfold fle, flt. rewrite (stands_cmp _ _ _ _ (seconds_stands t Ht) (seconds_stands u Hu)). split; intros L.
  - pose proof (kept_mono t u ltac:(lia) L). destruct (Z.compare_spec (kept t) (kept u)); reflexivity || lia.
  - pose proof (kept_error t Ht). pose proof (kept_error u Hu). destruct (Z.compare_spec (kept t) (kept u)); reflexivity || lia.
Qed.

(** ** C96: the second cut out of seconds() *)
Theorem C96_whole_second : forall t, 0 <= t < 2 ^ 64 -> let u := utc_seconds t in
  ftrunc (seconds t) = Some (u + (if (2 ^ 21 <=? u) && (2 ^ 32 - 2 ^ (Z.log2 u - 21) <=? fractional t) then 1 else 0)).
Proof.
  intros t H u. rewrite (stands_trunc _ _ (seconds_stands t H)). f_equal. destruct (time_parts t H) as (T & F & U). fold u in T, U. set (f := fractional t) in *.
  assert (Fin : forall x c, c * 2 ^ 32 <= x < (c + 1) * 2 ^ 32 -> x / 2 ^ 32 = c) by (intros x c Hx; symmetry; apply (Z.div_unique x (2 ^ 32) c (x - c * 2 ^ 32)); lia).
  destruct (Z.leb_spec (2 ^ 21) u) as [C|C]; cbn [andb].
  - assert (B : 2 ^ 53 <= t) by (change (2 ^ 53) with (2 ^ 21 * 2 ^ 32); nia).
    assert (L : Z.log2 t = Z.log2 u + 32).
    { destruct (log_range u ltac:(lia)) as [L1 L2]. apply Z.log2_unique; [lia|]. rewrite Z.pow_succ_r, !Z.pow_add_r by lia. nia. }
    destruct (kept_big t B) as [Ek K]. rewrite L in Ek, K. assert (L31 : Z.log2 u < 32) by (apply Z.log2_lt_pow2; lia). set (l := Z.log2 u) in *. replace (l + 32 - 52) with (l - 20) in * by lia.
    pose proof (pow_pos (l - 21) ltac:(lia)) as Ph. set (h := 2 ^ (l - 21)) in *.
    assert (Ew : 2 ^ (l - 20) = 2 * h) by (unfold h; rewrite <- Z.pow_succ_r by lia; f_equal; lia).
    assert (E32 : 2 ^ 32 = 2 * 2 ^ (51 - l) * (2 * h)) by (rewrite <- Ew; replace (2 * 2 ^ (51 - l)) with (2 ^ (52 - l)) by (rewrite <- Z.pow_succ_r by lia; f_equal; lia); rewrite <- Z.pow_add_r by lia; f_equal; lia).
    set (c := 2 ^ (51 - l)) in *. assert (Pc : 0 < c) by (apply pow_pos; lia).
    assert (Lo : u * 2 ^ 32 <= kept t).
    { rewrite Ek. destruct (rne_nearest t (l - 20) (u * (2 * c)) K) as [_ N]. rewrite Ew in *. replace (u * (2 * c) * (2 * h)) with (u * 2 ^ 32) in N by (rewrite E32; ring).
      assert (rne (u * (2 * c) * 2 ^ (l - 20)) (l - 20) <= rne t (l - 20)) by (apply rne_mono; [lia|]; rewrite Ew; replace (u * (2 * c) * (2 * h)) with (u * 2 ^ 32) by (rewrite E32; ring); lia).
      destruct (rne_nearest (u * (2 * c) * 2 ^ (l - 20)) (l - 20) (u * (2 * c)) K) as [_ N2]. rewrite Z.sub_diag in N2. rewrite Ew in *.
      assert (u * (2 * c) * (2 * h) = rne (u * (2 * c) * (2 * h)) (l - 20) * (2 * h)) by lia. rewrite E32. nia. }
    destruct (Z.leb_spec (2 ^ 32 - h) f) as [D|D]; apply Fin.
    + (* rounded up *)
      assert (R : rne t (l - 20) = (u + 1) * (2 * c)).
      { set (M := (u + 1) * (2 * c)). assert (EM : M * (2 * h) = (u + 1) * 2 ^ 32) by (unfold M; rewrite E32; ring). unfold rne. destruct (Z.leb_spec (l - 20) 0); [lia|]. cbv zeta. replace (l - 20 - 1) with (l - 21) by lia. fold h. rewrite Ew.
        assert (Q : t / (2 * h) = M - 1) by (symmetry; apply (Z.div_unique t (2 * h) (M - 1) (t - (M - 1) * (2 * h))); lia).
        assert (Rm : t mod (2 * h) = t - (M - 1) * (2 * h)) by (symmetry; apply (Z.mod_unique t (2 * h) (M - 1)); lia).
        rewrite Q, Rm. assert (Ev : Z.even (M - 1) = false) by (unfold M; rewrite Z.even_sub, Z.even_mul, Z.even_mul, Bool.orb_true_r; reflexivity).
        rewrite Ev. destruct (Z.ltb_spec (t - (M - 1) * (2 * h)) h); [lia|]. destruct (Z.ltb_spec h (t - (M - 1) * (2 * h))); lia. }
      rewrite Ek, R, Ew. replace ((u + 1) * (2 * c) * (2 * h)) with ((u + 1) * 2 ^ 32) by (rewrite E32; ring). lia.
    + split; [lia|]. destruct (rne_nearest t (l - 20) 0 K) as [N _]. rewrite Ek. rewrite Ew in *. lia.
  - assert (t < 2 ^ 53) by (change (2 ^ 53) with (2 ^ 21 * 2 ^ 32); nia). rewrite kept_small by lia. apply Fin. lia.
Qed.
(** so, from 1970-01-25 on, in every second there are times that seconds() puts into the next one *)
Theorem C96_whole_second_refuted : forall u, 2 ^ 21 <= u < 2 ^ 32 -> exists t, 0 <= t < 2 ^ 64 /\ utc_seconds t = u /\ ftrunc (seconds t) = Some (u + 1).
Proof.
  intros u H. set (t := u * 2 ^ 32 + (2 ^ 32 - 1)). assert (Ht : 0 <= t < 2 ^ 64) by (change (2 ^ 64) with (2 ^ 32 * 2 ^ 32); unfold t; nia). exists t. destruct (time_parts t Ht) as (T & F & U).
  assert (E : utc_seconds t = u /\ fractional t = 2 ^ 32 - 1) by (unfold t in T at 1; nia). destruct E as [E1 E2]. split; [exact Ht|]. split; [exact E1|].
  rewrite (C96_whole_second t Ht), E1, E2. assert (21 <= Z.log2 u) by (change 21 with (Z.log2 (2 ^ 21)); apply Z.log2_le_mono; lia). pose proof (pow_pos (Z.log2 u - 21) ltac:(lia)).
  replace (2 ^ 21 <=? u) with true by lia. replace (2 ^ 32 - 2 ^ (Z.log2 u - 21) <=? 2 ^ 32 - 1) with true by lia. reflexivity.
Qed.
(** and different times of one second that seconds() does not tell apart *)
Theorem C96_distinct_refuted : forall u, 2 ^ 21 <= u < 2 ^ 32 -> exists t t', 0 <= t < t' /\ t' < 2 ^ 64 /\ utc_seconds t = u /\ utc_seconds t' = u /\ dt_lt t t' = true /\ fcmp (seconds t) (seconds t') = Some Eq.
Proof.
  intros u H. set (t := u * 2 ^ 32). assert (Ht : 0 <= t /\ t + 1 < 2 ^ 64) by (change (2 ^ 64) with (2 ^ 32 * 2 ^ 32); unfold t; nia). exists t, (t + 1).
  destruct (time_parts t ltac:(lia)) as (T & F & U). destruct (time_parts (t + 1) ltac:(lia)) as (T' & F' & U').
  assert (E : utc_seconds t = u) by (unfold t in T at 1; nia). assert (E' : utc_seconds (t + 1) = u) by (unfold t in T' at 1; nia).
  split; [lia|]. split; [lia|]. split; [exact E|]. split; [exact E'|]. split; [unfold dt_lt; lia|].
  rewrite (stands_cmp _ _ _ _ (seconds_stands t ltac:(lia)) (seconds_stands (t + 1) ltac:(lia))). f_equal. apply Z.compare_eq_iff.
  assert (L : 21 <= Z.log2 u < 32) by (split; [change 21 with (Z.log2 (2 ^ 21)); apply Z.log2_le_mono; lia|apply Z.log2_lt_pow2; lia]).
  destruct (log_range u ltac:(lia)) as [_ L2]. set (l := Z.log2 u) in *.
  assert (B : 2 ^ 53 <= t) by (change (2 ^ 53) with (2 ^ 21 * 2 ^ 32); unfold t; nia).
  assert (Lt : Z.log2 t = l + 32) by (apply Z.log2_unique; [lia|]; rewrite Z.pow_succ_r, !Z.pow_add_r by lia; unfold t; nia).
  assert (Lt' : Z.log2 (t + 1) = l + 32) by (apply Z.log2_unique; [lia|]; rewrite Z.pow_succ_r, !Z.pow_add_r by lia; unfold t; nia).
  assert (E32 : t = u * 2 ^ (52 - l) * 2 ^ (l - 20)) by (unfold t; rewrite <- Z.mul_assoc, <- Z.pow_add_r by lia; do 2 f_equal; lia).
  rewrite (kept_multiple t (l - 20) (u * 2 ^ (52 - l)) B ltac:(lia) E32).
  destruct (kept_big (t + 1) ltac:(lia)) as [-> K]. rewrite Lt' in *. replace (l + 32 - 52) with (l - 20) in * by lia. set (M := u * 2 ^ (52 - l)) in *.
  assert (Ev : Z.even M = true) by (unfold M; replace (52 - l) with (1 + (51 - l)) by lia; rewrite Z.pow_add_r, Z.even_mul, Z.even_mul by lia; apply Bool.orb_true_r).
  rewrite E32 at 1. f_equal. pose proof (pow_pos (l - 20 - 1) ltac:(lia)) as Ph. assert (Ew : 2 ^ (l - 20) = 2 * 2 ^ (l - 20 - 1)) by (rewrite <- Z.pow_succ_r by lia; f_equal; lia).
  unfold rne. destruct (Z.leb_spec (l - 20) 0); [lia|]. cbv zeta. rewrite Ew in *. set (h := 2 ^ (l - 20 - 1)) in *.
  assert (Q : (t + 1) / (2 * h) = M) by (symmetry; apply (Z.div_unique (t + 1) (2 * h) M 1); lia). assert (Rm : (t + 1) mod (2 * h) = 1) by (symmetry; apply (Z.mod_unique (t + 1) (2 * h) M 1); lia).
  rewrite Q, Rm, Ev. destruct (Z.ltb_spec 1 h); [reflexivity|]. destruct (Z.ltb_spec h 1); [lia|reflexivity].
Qed.

(** ** C96: the six operators are one order, by second and then by fraction *)
Theorem C96_operators : forall t u, 0 <= t < 2 ^ 64 -> 0 <= u < 2 ^ 64 ->
  (dt_lt t u = true <-> utc_seconds t < utc_seconds u \/ utc_seconds t = utc_seconds u /\ fractional t < fractional u) /\
  (dt_eq t u = true <-> utc_seconds t = utc_seconds u /\ fractional t = fractional u) /\
  dt_gt t u = dt_lt u t /\ dt_ne t u = negb (dt_eq t u) /\ dt_le t u = dt_lt t u || dt_eq t u /\ dt_ge t u = dt_gt t u || dt_eq t u /\
  dt_lt t u && dt_gt t u = false /\ dt_lt t u || dt_eq t u || dt_gt t u = true.
Proof.
  intros t u Ht Hu. destruct (time_parts t Ht) as (T & F & U). destruct (time_parts u Hu) as (T' & F' & U').
  unfold dt_gt, dt_ge, dt_le, dt_gt, dt_ne, dt_lt, dt_eq. repeat split; try lia; try reflexivity; nia.
Qed.
Theorem C96_order_transitive : forall t u w, (dt_lt t u = true -> dt_lt u w = true -> dt_lt t w = true) /\ (dt_le t u = true -> dt_le u w = true -> dt_le t w = true) /\
  (dt_le t u = true -> dt_le u t = true -> dt_eq t u = true).
Proof. intros. unfold dt_le, dt_gt, dt_lt, dt_eq. lia. Qed.
(** the operators agree with the numbers of seconds, but for ties *)
Theorem C96_operators_seconds : forall t u, 0 <= t < 2 ^ 64 -> 0 <= u < 2 ^ 64 -> flt (seconds t) (seconds u) = true -> dt_lt t u = true.
Proof.
  intros t u Ht Hu. unfold flt, dt_lt. rewrite (stands_cmp _ _ _ _ (seconds_stands t Ht) (seconds_stands u Hu)). intros H.
  destruct (Z.ltb_spec t u) as [|L]; [reflexivity|]. pose proof (kept_mono u t ltac:(lia) L). destruct (Z.compare_spec (kept t) (kept u)); try discriminate; lia.
Qed.

(** ** C96: times made of a time_t *)
Theorem C96_time_t : forall s, - 2 ^ 63 <= s < 2 ^ 63 -> let t := from_time_t s in
  0 <= t < 2 ^ 64 /\ utc_seconds t = s mod 2 ^ 32 /\ fractional t = 0 /\ (utc_seconds t = s <-> 0 <= s < 2 ^ 32).
Proof.
  intros s H t. assert (E : t = s mod 2 ^ 32 * 2 ^ 32).
  { unfold t, from_time_t, u64. rewrite Z.shiftl_mul_pow2 by lia. change (2 ^ 64) with (2 ^ 32 * 2 ^ 32). rewrite Z.mul_mod_distr_r by lia. f_equal.
    rewrite Z.rem_mul_r by lia. rewrite (Z.mul_comm (2 ^ 32)), Z.mod_add by lia. apply Z.mod_mod. lia. }
  pose proof (Z.mod_pos_bound s (2 ^ 32) ltac:(lia)) as M. assert (Ht : 0 <= t < 2 ^ 64) by (change (2 ^ 64) with (2 ^ 32 * 2 ^ 32); nia). split; [exact Ht|].
  destruct (time_parts t Ht) as (T & F & U). assert (X : utc_seconds t = s mod 2 ^ 32 /\ fractional t = 0) by nia. destruct X as [X1 X2]. split; [exact X1|]. split; [exact X2|]. rewrite X1. split; intros Q; [lia|apply Z.mod_small; lia].
Qed.
(** so that a time_t beyond the year 2106 or before 1970 is taken for another time *)
Theorem C96_time_t_refuted : forall s k, 0 <= s < 2 ^ 32 -> k <> 0 -> - 2 ^ 63 <= s + k * 2 ^ 32 < 2 ^ 63 -> from_time_t (s + k * 2 ^ 32) = from_time_t s.
Proof.
  intros s k H K R. destruct (C96_time_t _ R) as (A & B & C & _). destruct (C96_time_t s ltac:(lia)) as (A' & B' & C' & _). cbv zeta in *.
  rewrite Z.mod_add in B by lia. destruct (time_parts _ A) as (T & _). destruct (time_parts _ A') as (T' & _). rewrite T, T', B, B', C, C'. reflexivity.
Qed.

(** ** Examples *)
(** 2020-09-13 12:26:40.999999999 is 12:26:41 in seconds(), the same time in 1970-01-02 is not *)
Definition sep2020 : Z := 1600000000 * 2 ^ 32 + 4294967291.
Example C96_case : 0 <= sep2020 < 2 ^ 64 /\ utc_seconds sep2020 = 1600000000 /\ fractional2ns (fractional sep2020) = 999999998 /\
  ftrunc (seconds sep2020) = Some 1600000001 /\ ftrunc (seconds (100000 * 2 ^ 32 + 4294967291)) = Some 100000 /\
  fcmp (seconds (1600000000 * 2 ^ 32 + 2 ^ 31)) (FFin false (1600000000 * 2 ^ 32 + 2 ^ 31) (-32)) = Some Eq /\
  fcmp (seconds sep2020) (seconds (1600000001 * 2 ^ 32)) = Some Eq /\ utc_seconds (from_time_t (-1)) = 4294967295.
Proof. vm_compute. repeat split; discriminate || reflexivity. Qed.

Print Assumptions C96_fraction_exact.
Print Assumptions C96_seconds_nearest.
Print Assumptions C96_seconds_error.
Print Assumptions C96_seconds_exact.
Print Assumptions C96_seconds_order.
Print Assumptions C96_whole_second.
Print Assumptions C96_whole_second_refuted.
Print Assumptions C96_distinct_refuted.
Print Assumptions C96_operators.
Print Assumptions C96_order_transitive.
Print Assumptions C96_operators_seconds.
Print Assumptions C96_time_t.
Print Assumptions C96_time_t_refuted.

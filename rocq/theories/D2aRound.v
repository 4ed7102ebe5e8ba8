(** * D2aRound: the number printed is closer to the double than any other double *)
From Verif Require Import Base Erthink ErthinkProofs D2a D2aProofs.
From Coq Require Import ZifyBool ZifyNat.
Ltac Zify.zify_post_hook ::= Z.div_mod_to_equations.

(** ** Margins *)
(** [Pn / Pd] is the exact power of ten that [F] approximates, [h] twice the distance down to the
    middle between the double and the one below it, in units of the normalized mantissa [f]. *)
Lemma margins f F lz h Pn Pd x high lsb delta top :
  0 < Pd -> (2 * F - 1) * Pd <= 2 * Pn <= (2 * F + 1) * Pd ->
  0 <= h <= 2 * f -> 0 <= lz -> 2 * f + 2 ^ lz < 2 ^ 65 ->
  delta * 2 ^ 64 <= F * h -> h <= 2 ^ lz -> 0 < F ->
  x = f * F -> high * 2 ^ 64 + lsb * 2 ^ 63 <= x < high * 2 ^ 64 + lsb * 2 ^ 63 + 2 ^ 63 ->
  top = high + (delta + lsb - 1) / 2 ->
  top * 2 ^ 65 * Pd < (2 * f + 2 ^ lz) * Pn /\ (2 * f - h) * Pn < (top - (delta - 2)) * 2 ^ 65 * Pd /\ top < F.
Proof.
  intros HPd HP Hh Hlz Hf Hdel Hhl HF Hx Hhi Htop.
  assert (T1 : 2 * top <= 2 * high + delta + lsb - 1) by lia.
  assert (T2 : 2 * high + delta + lsb - 2 <= 2 * top) by lia.
  clear Htop. assert (0 < 2 ^ lz) by (apply pow2_pos; lia). set (L := 2 ^ lz) in *. clearbody L.
  assert (D1 : delta * 2 ^ 64 <= F * L) by nia.
  assert (U : 2 ^ 64 * (2 * top) <= F * (2 * f + L) - 2 ^ 64) by lia.
  assert (V : F * (2 * f - h) + 2 ^ 64 < 2 ^ 64 * (2 * (top - (delta - 2)))) by lia.
  clear T1 T2 Hhi Hdel D1 Hx.
  split; [|split].
  - assert (A : 2 ^ 64 * (2 * top) * (2 * Pd) <= (F * (2 * f + L) - 2 ^ 64) * (2 * Pd)) by (apply Z.mul_le_mono_nonneg_r; lia).
    assert (B : (2 * f + L) * ((2 * F - 1) * Pd) <= (2 * f + L) * (2 * Pn)) by (apply Z.mul_le_mono_nonneg_l; lia).
    assert (C : (2 * f + L) * Pd < 2 ^ 65 * Pd) by (apply Z.mul_lt_mono_pos_r; lia).
    assert ((2 * f + L) * ((2 * F - 1) * Pd) = F * (2 * f + L) * (2 * Pd) - (2 * f + L) * Pd) by ring.
    lia.
  - assert (A : (F * (2 * f - h) + 2 ^ 64) * (2 * Pd) < 2 ^ 64 * (2 * (top - (delta - 2))) * (2 * Pd)) by (apply Z.mul_lt_mono_pos_r; lia).
    assert (B : (2 * f - h) * (2 * Pn) <= (2 * f - h) * ((2 * F + 1) * Pd)) by (apply Z.mul_le_mono_nonneg_l; lia).
    assert (C : (2 * f - h) * Pd < 2 ^ 65 * Pd) by (apply Z.mul_lt_mono_pos_r; lia).
    assert ((2 * f - h) * ((2 * F + 1) * Pd) = F * (2 * f - h) * (2 * Pd) + (2 * f - h) * Pd) by ring.
    lia.
  - assert (F * (2 * f + L) <= F * 2 ^ 65) by (apply Z.mul_le_mono_nonneg_l; lia). lia.
Qed.

(** ** The entry used *)
Definition bigP (x : Z) : Z := 10 ^ (400 - x) * 2 ^ 1300.
Definition bigQ (Fe : Z) : Z := 10 ^ 400 * 2 ^ (1300 + Fe).
Lemma power_entry e F Fe x : -1137 <= e <= 960 -> cached_power e = Some (F, Fe, x) ->
  2 ^ 63 <= F < 2 ^ 64 /\ -340 <= x <= 340 /\ -1193 <= Fe <= 1066 /\ 34 <= - (e + (Fe + 64)) <= 60 /\
  F < 10 * 2 ^ (- (Fe + Z.max (e + 11) (-1074))) /\
  (2 * F - 1) * bigQ Fe <= 2 * bigP x <= (2 * F + 1) * bigQ Fe.
Proof.
  intros He E.
  pose proof (all_below_spec _ _ indexes_ok (e + 1137) ltac:(lia)) as I. cbv beta in I.
  replace (e + 1137 - 1137) with e in I by lia. unfold index_ok in I. rewrite E in I.
  repeat (apply andb_prop in I as [I ?]).
  assert (EO : exists i, (i < 86)%nat /\ nth_error power10_mas i = Some F /\ nth_error power10_exp2 i = Some Fe /\ x = 340 - 8 * Z.of_nat i).
  { clear - E. unfold cached_power in E. cbv zeta in E.
    set (u := u32 _) in E. assert (Hu : 0 <= u) by (unfold u, u32; apply Z.mod_pos_bound; lia). clearbody u.
    set (i := Z.to_nat (Z.shiftr u 3)) in E.
    destruct (nth_error power10_mas i) as [F'|] eqn:E1; [|discriminate].
    destruct (nth_error power10_exp2 i) as [Fe'|] eqn:E2; [|discriminate].
    exists i. split; [|split; [|split]].
    - assert (L : (i < length power10_mas)%nat) by (apply nth_error_Some; congruence). exact L.
    - congruence.
    - congruence.
    - assert (X : x = 340 - (u - Z.land u 7)) by congruence. rewrite X.
      change 7 with (2 ^ 3 - 1). rewrite land_mask by lia. unfold i. rewrite Z.shiftr_div_pow2 by lia.
      change (2 ^ 3) with 8. clear - Hu. lia. }
  destruct EO as (i & Li & Em & Ee & Ex).
  pose proof (proj1 (forallb_forall _ _) entries_ok i ltac:(apply in_seq; lia)) as N. unfold entry_ok in N.
  rewrite Em, Ee in N. cbv zeta in N. apply andb_prop in N as [N1 N2].
  repeat (split; [lia|]).
  replace (8 * Z.of_nat i - 340) with (- x) in * by lia. rewrite Z.opp_involutive in *.
  apply Z.leb_le in N1, N2.
  assert (Hx : -340 <= x <= 340) by lia. assert (HF : -1193 <= Fe <= 1066) by lia.
  assert (EP : bigP x = (10 ^ Z.max (- x) 0 * 2 ^ Z.max (- Fe) 0) * (10 ^ (400 - Z.max x 0) * 2 ^ (1300 - Z.max (- Fe) 0))).
  { unfold bigP.
    replace (400 - x) with (Z.max (- x) 0 + (400 - Z.max x 0)) by lia.
    replace (2 ^ 1300) with (2 ^ (Z.max (- Fe) 0 + (1300 - Z.max (- Fe) 0))) by (f_equal; lia).
    rewrite (Z.pow_add_r 10) by lia. rewrite (Z.pow_add_r 2) by lia. ring. }
  assert (EQ : bigQ Fe = (10 ^ Z.max x 0 * 2 ^ Z.max Fe 0) * (10 ^ (400 - Z.max x 0) * 2 ^ (1300 - Z.max (- Fe) 0))).
  { unfold bigQ.
    replace (1300 + Fe) with (Z.max Fe 0 + (1300 - Z.max (- Fe) 0)) by lia.
    replace (10 ^ 400) with (10 ^ (Z.max x 0 + (400 - Z.max x 0))) by (f_equal; lia).
    rewrite (Z.pow_add_r 10) by lia. rewrite (Z.pow_add_r 2) by lia. ring. }
  rewrite EP, EQ. clear EP EQ.
  assert (C : 0 < 10 ^ (400 - Z.max x 0) * 2 ^ (1300 - Z.max (- Fe) 0)).
  { apply Z.mul_pos_pos; [apply pow10_pos|apply pow2_pos]; lia. }
  set (c := 10 ^ (400 - Z.max x 0) * 2 ^ (1300 - Z.max (- Fe) 0)) in *.
  set (pn := 10 ^ Z.max (- x) 0 * 2 ^ Z.max (- Fe) 0) in *. set (pd := 10 ^ Z.max x 0 * 2 ^ Z.max Fe 0) in *.
  clearbody c pn pd. clear - N1 N2 C. rewrite !Z.mul_assoc.
  split; apply Z.mul_le_mono_nonneg_r; lia.
Qed.

(** ** Between the neighbours *)
(** D * 10^X lies strictly inside the rounding interval of f * 2^e.  Lengths are compared in units
    of 2^-1074 (the smallest positive double), multiplied by [den]. *)
Definition num (D X : Z) : Z := D * 10 ^ Z.max X 0.
Definition den (X : Z) : Z := 10 ^ Z.max (- X) 0.
Definition between (f e D X : Z) : Prop :=
  (2 * f - 1) * 2 ^ (e + 1074) * den X < num D X * 2 ^ 1075 < (2 * f + 1) * 2 ^ (e + 1074) * den X /\
  (f = 2 ^ 52 -> (4 * f - 1) * 2 ^ (e + 1074) * den X < num D X * 2 ^ 1076).

Lemma den_pos X : 0 < den X. Proof. apply pow10_pos. lia. Qed.
Lemma num_den D X : -1000 <= X -> D * 10 ^ (1200 + X) = num D X * 10 ^ (1200 - Z.max (- X) 0) /\
  10 ^ 1200 = den X * 10 ^ (1200 - Z.max (- X) 0).
Proof.
  intros H. unfold num, den. split.
  - replace (1200 + X) with (Z.max X 0 + (1200 - Z.max (- X) 0)) by lia. rewrite Z.pow_add_r by lia. apply Z.mul_assoc.
  - rewrite <- Z.pow_add_r by lia. f_equal. lia.
Qed.
Lemma wide_near top delta s D kap : -400 <= kap -> near top delta s D kap ->
  (top - delta) * 10 ^ 400 <= D * 10 ^ (400 + kap) * 2 ^ s <= top * 10 ^ 400.
Proof.
  intros Hk [A B]. destruct (Z_le_gt_dec 0 kap) as [P|N].
  - specialize (A P). rewrite Z.pow_add_r by lia.
    replace (D * (10 ^ 400 * 10 ^ kap) * 2 ^ s) with (D * 10 ^ kap * 2 ^ s * 10 ^ 400) by ring.
    pose proof (pow10_pos 400 ltac:(lia)) as P4. set (q := 10 ^ 400) in *. clearbody q.
    split; apply Z.mul_le_mono_nonneg_r; lia.
  - specialize (B ltac:(lia)).
    replace (10 ^ 400) with (10 ^ (- kap) * 10 ^ (400 + kap)) by (rewrite <- Z.pow_add_r by lia; f_equal; lia).
    pose proof (pow10_pos (400 + kap) ltac:(lia)) as P4. set (q := 10 ^ (400 + kap)) in *. clearbody q.
    replace (D * q * 2 ^ s) with (D * 2 ^ s * q) by ring. rewrite !Z.mul_assoc.
    split; apply Z.mul_le_mono_nonneg_r; lia.
Qed.

Lemma collect_left D kap s x Fe e lz : 0 <= s -> -1300 <= Fe -> -400 <= kap -> -400 <= x -> -1074 <= e -> 0 <= lz ->
  s = - (e - lz + (Fe + 64)) ->
  D * 10 ^ (400 + kap) * 2 ^ s * (2 ^ 65 * bigQ Fe) * (2 ^ (e + 1074) * 10 ^ (400 + x)) =
  D * 10 ^ (1200 + (x + kap)) * 2 ^ 1075 * 2 ^ (lz + 1300).
Proof.
  intros. unfold bigQ.
  replace (2 ^ 1075 * 2 ^ (lz + 1300)) with (2 ^ s * 2 ^ 65 * 2 ^ (1300 + Fe) * 2 ^ (e + 1074)).
  2:{ rewrite <- !Z.pow_add_r by lia. f_equal. lia. }
  replace (10 ^ (1200 + (x + kap))) with (10 ^ (400 + kap) * 10 ^ 400 * 10 ^ (400 + x)).
  2:{ rewrite <- !Z.pow_add_r by lia. f_equal. lia. }
  replace (D * (10 ^ (400 + kap) * 10 ^ 400 * 10 ^ (400 + x)) * 2 ^ 1075 * 2 ^ (lz + 1300))
    with (D * (10 ^ (400 + kap) * 10 ^ 400 * 10 ^ (400 + x)) * (2 ^ 1075 * 2 ^ (lz + 1300))) by ring.
  replace (2 ^ 1075 * 2 ^ (lz + 1300)) with (2 ^ s * 2 ^ 65 * 2 ^ (1300 + Fe) * 2 ^ (e + 1074)).
  2:{ rewrite <- !Z.pow_add_r by lia. f_equal. lia. }
  ring.
Qed.

Lemma collect_right A x e lz : -400 <= x <= 400 -> -1074 <= e -> 0 <= lz ->
  A * 2 ^ lz * bigP x * 10 ^ 400 * (2 ^ (e + 1074) * 10 ^ (400 + x)) = A * 2 ^ (e + 1074) * 2 ^ (lz + 1300) * 10 ^ 1200.
Proof.
  intros. unfold bigP.
  replace (2 ^ (lz + 1300)) with (2 ^ lz * 2 ^ 1300) by (rewrite <- Z.pow_add_r by lia; reflexivity).
  replace (10 ^ 1200) with (10 ^ (400 - x) * 10 ^ 400 * 10 ^ (400 + x)).
  2:{ rewrite <- !Z.pow_add_r by lia. f_equal. lia. }
  set (a := 10 ^ (400 - x)). set (b := 10 ^ (400 + x)). set (c := 10 ^ 400). set (d := 2 ^ 1300).
  clearbody a b c d. ring.
Qed.

Section Bracket.
Variables (e lz Fe x s D kap : Z).
Hypotheses (He : -1074 <= e) (Hlz : 0 <= lz) (HFe : -1193 <= Fe) (Hx : -340 <= x <= 340) (Hk : -100 <= kap <= 100)
  (Hs : 0 <= s) (Es : s = - (e - lz + (Fe + 64))).

Lemma bigQ_pos : 0 < bigQ Fe.
Proof. unfold bigQ. apply Z.mul_pos_pos; [apply pow10_pos|apply pow2_pos]; lia. Qed.
Lemma q_pos : 0 < 2 ^ (e + 1074) * 10 ^ (400 + x).
Proof. apply Z.mul_pos_pos; [apply pow2_pos|apply pow10_pos]; lia. Qed.

Lemma bracket_upper A top : D * 10 ^ (400 + kap) * 2 ^ s <= top * 10 ^ 400 ->
  top * 2 ^ 65 * bigQ Fe < A * 2 ^ lz * bigP x ->
  num D (x + kap) * 2 ^ 1075 < A * 2 ^ (e + 1074) * den (x + kap).
Proof.
  intros H1 H2. pose proof bigQ_pos as PQ. pose proof q_pos as Pq.
  pose proof (collect_left D kap s x Fe e lz Hs ltac:(lia) ltac:(lia) ltac:(lia) He Hlz Es) as CL.
  pose proof (collect_right A x e lz ltac:(lia) He Hlz) as CR.
  destruct (num_den D (x + kap) ltac:(lia)) as [ND1 ND2]. rewrite ND1 in CL. rewrite ND2 in CR.
  set (q := 2 ^ (e + 1074) * 10 ^ (400 + x)) in *. clearbody q.
  assert (P4 : 0 < 10 ^ 400) by (apply pow10_pos; lia). set (t := 10 ^ 400) in *. clearbody t.
  assert (M1 : D * 10 ^ (400 + kap) * 2 ^ s * (2 ^ 65 * bigQ Fe) * q <= top * t * (2 ^ 65 * bigQ Fe) * q).
  { apply Z.mul_le_mono_nonneg_r; [lia|]. apply Z.mul_le_mono_nonneg_r; lia. }
  assert (M2 : top * 2 ^ 65 * bigQ Fe * t * q < A * 2 ^ lz * bigP x * t * q).
  { apply Z.mul_lt_mono_pos_r; [lia|]. apply Z.mul_lt_mono_pos_r; lia. }
  assert (M3 : top * t * (2 ^ 65 * bigQ Fe) * q = top * 2 ^ 65 * bigQ Fe * t * q) by (generalize (2 ^ 65); intros; ring).
  rewrite CL in M1. rewrite CR in M2. rewrite M3 in M1. clear CL CR ND1 ND2 M3.
  assert (PW : 0 < 10 ^ (1200 - Z.max (- (x + kap)) 0)) by (apply pow10_pos; lia).
  set (w := 10 ^ (1200 - Z.max (- (x + kap)) 0)) in *. clearbody w.
  assert (PM : 0 < 2 ^ (lz + 1300)) by (apply pow2_pos; lia). set (m := 2 ^ (lz + 1300)) in *. clearbody m.
  set (n := num D (x + kap)) in *. set (d := den (x + kap)) in *. set (g := 2 ^ (e + 1074)) in *. set (k := 2 ^ 1075) in *.
  clearbody n d g k. generalize dependent (top * 2 ^ 65 * bigQ Fe * t * q). intros z M1 M2.
  apply (Z.mul_lt_mono_pos_r (m * w)); [apply Z.mul_pos_pos; lia|].
  replace (n * k * (m * w)) with (n * w * k * m) by ring. replace (A * g * d * (m * w)) with (A * g * m * (d * w)) by ring. lia.
Qed.

Lemma bracket_lower A c top : 0 < c -> top * 10 ^ 400 <= D * 10 ^ (400 + kap) * 2 ^ s ->
  A * 2 ^ lz * bigP x < c * (top * 2 ^ 65 * bigQ Fe) ->
  A * 2 ^ (e + 1074) * den (x + kap) < c * (num D (x + kap) * 2 ^ 1075).
Proof.
  intros Hc H1 H2. pose proof bigQ_pos as PQ. pose proof q_pos as Pq.
  pose proof (collect_left D kap s x Fe e lz Hs ltac:(lia) ltac:(lia) ltac:(lia) He Hlz Es) as CL.
  pose proof (collect_right A x e lz ltac:(lia) He Hlz) as CR.
  destruct (num_den D (x + kap) ltac:(lia)) as [ND1 ND2]. rewrite ND1 in CL. rewrite ND2 in CR.
  set (q := 2 ^ (e + 1074) * 10 ^ (400 + x)) in *. clearbody q.
  assert (P4 : 0 < 10 ^ 400) by (apply pow10_pos; lia). set (t := 10 ^ 400) in *. clearbody t.
  assert (M1 : c * (top * t * (2 ^ 65 * bigQ Fe) * q) <= c * (D * 10 ^ (400 + kap) * 2 ^ s * (2 ^ 65 * bigQ Fe) * q)).
  { apply Z.mul_le_mono_nonneg_l; [lia|]. apply Z.mul_le_mono_nonneg_r; [lia|]. apply Z.mul_le_mono_nonneg_r; lia. }
  assert (M2 : A * 2 ^ lz * bigP x * t * q < c * (top * 2 ^ 65 * bigQ Fe) * t * q).
  { apply Z.mul_lt_mono_pos_r; [lia|]. apply Z.mul_lt_mono_pos_r; lia. }
  assert (M3 : c * (top * t * (2 ^ 65 * bigQ Fe) * q) = c * (top * 2 ^ 65 * bigQ Fe) * t * q) by (generalize (2 ^ 65); intros; ring).
  rewrite CL in M1. rewrite CR in M2. rewrite M3 in M1. clear CL CR ND1 ND2 M3.
  assert (PW : 0 < 10 ^ (1200 - Z.max (- (x + kap)) 0)) by (apply pow10_pos; lia).
  set (w := 10 ^ (1200 - Z.max (- (x + kap)) 0)) in *. clearbody w.
  assert (PM : 0 < 2 ^ (lz + 1300)) by (apply pow2_pos; lia). set (m := 2 ^ (lz + 1300)) in *. clearbody m.
  set (n := num D (x + kap)) in *. set (d := den (x + kap)) in *. set (g := 2 ^ (e + 1074)) in *. set (k := 2 ^ 1075) in *.
  clearbody n d g k. generalize dependent (c * (top * 2 ^ 65 * bigQ Fe) * t * q). intros z M1 M2.
  apply (Z.mul_lt_mono_pos_r (m * w)); [apply Z.mul_pos_pos; lia|].
  replace (c * (n * k) * (m * w)) with (c * (n * w * k * m)) by ring. replace (A * g * d * (m * w)) with (A * g * m * (d * w)) by ring. lia.
Qed.
End Bracket.

(** ** Conversion *)
Definition exactly (n f e : Z) : Prop := n * 2 ^ 1074 = f * 2 ^ (e + 1074).
Inductive converts (f e : Z) : option shown -> Prop :=
| conv_ord n : 0 <= n < 2 ^ 64 -> exactly n f e -> converts f e (Some (Ordinal n))
| conv_dec ds x : Forall isdig ds -> (1 <= length ds <= 17)%nat -> -360 <= x <= 360 -> between f e (dval ds) x ->
    converts f e (Some (Decimal ds x)).

Lemma lead_zeros f : 0 < f < 2 ^ 53 -> exists lz, fallback_clz64 f = lz /\ 11 <= lz <= 63 /\ 2 ^ 63 <= f * 2 ^ lz < 2 ^ 64.
Proof.
  intros Hf. exists (63 - Z.log2 f). split; [apply clz64_exact; lia|].
  destruct (Z.log2_spec f ltac:(lia)) as [L1 L2]. pose proof (Z.log2_nonneg f).
  assert (Z.log2 f < 53) by (apply Z.log2_lt_pow2; lia). split; [lia|].
  assert (2 ^ 63 = 2 ^ Z.log2 f * 2 ^ (63 - Z.log2 f)) by (rewrite <- Z.pow_add_r by lia; f_equal; lia).
  assert (2 ^ 64 = 2 ^ Z.succ (Z.log2 f) * 2 ^ (63 - Z.log2 f)) by (rewrite <- Z.pow_add_r by lia; f_equal; lia).
  assert (0 < 2 ^ (63 - Z.log2 f)) by (apply pow2_pos; lia). nia.
Qed.

Lemma ordinal_ok f e lz : 0 < f < 2 ^ 53 -> 0 <= lz -> f * 2 ^ lz < 2 ^ 64 -> -52 <= e <= lz ->
  (0 <= e \/ u64 (Z.shiftl f (64 + e)) = 0) ->
  let n := if e <? 0 then Z.shiftr f (- e) else u64 (Z.shiftl f e) in 0 <= n < 2 ^ 64 /\ exactly n f e.
Proof.
  intros Hf Hlz Hn He C. cbv zeta. unfold exactly. destruct (Z.ltb_spec e 0) as [N|P].
  - destruct C as [C|C]; [lia|]. rewrite Z.shiftr_div_pow2 by lia. rewrite Z.shiftl_mul_pow2 in C by lia.
    unfold u64 in C. assert (Pe : 0 < 2 ^ (- e)) by (apply pow2_pos; lia).
    assert (P64 : 2 ^ 64 = 2 ^ (64 + e) * 2 ^ (- e)) by (rewrite <- Z.pow_add_r by lia; f_equal; lia).
    assert (Pp : 0 < 2 ^ (64 + e)) by (apply pow2_pos; lia).
    assert (Z.divide (2 ^ (- e)) f) as [k Hk].
    { apply Z.mod_divide in C; [|lia]. destruct C as [k Hk]. exists k. rewrite P64 in Hk.
      apply (Z.mul_cancel_r _ _ (2 ^ (64 + e))); [lia|]. rewrite Hk. ring. }
    rewrite Hk, Z.div_mul by lia.
    replace (2 ^ 1074) with (2 ^ (- e) * 2 ^ (e + 1074)) by (rewrite <- Z.pow_add_r by lia; f_equal; lia).
    split; [|ring]. nia.
  - rewrite Z.shiftl_mul_pow2 by lia. assert (0 < 2 ^ e) by (apply pow2_pos; lia).
    assert (2 ^ e <= 2 ^ lz) by (apply Z.pow_le_mono_r; lia).
    rewrite u64_small by nia. rewrite Z.pow_add_r by lia. set (c := 2 ^ 1074). clearbody c. split; [nia|ring].
Qed.

Lemma scaled_bounds d F h m : 0 < h -> h * m = 2 ^ 64 -> d * m <= F < (d + 1) * m ->
  d * 2 ^ 64 <= F * h < (d + 1) * 2 ^ 64.
Proof.
  intros Hh E [A B]. rewrite <- E. split.
  - replace (d * (h * m)) with (d * m * h) by ring. apply Z.mul_le_mono_nonneg_r; lia.
  - replace ((d + 1) * (h * m)) with ((d + 1) * m * h) by ring. apply Z.mul_lt_mono_pos_r; lia.
Qed.
Lemma top_room f lz : 0 <= lz <= 64 -> f * 2 ^ lz < 2 ^ 64 -> 2 * (f * 2 ^ lz) + 2 ^ lz < 2 ^ 65.
Proof.
  intros Hl Hf. assert (E : 2 ^ 64 = 2 ^ (64 - lz) * 2 ^ lz) by (rewrite <- Z.pow_add_r by lia; f_equal; lia).
  assert (P : 0 < 2 ^ lz) by (apply pow2_pos; lia).
  assert (f < 2 ^ (64 - lz)) by (apply (Z.mul_lt_mono_pos_r (2 ^ lz)); lia).
  assert (f * 2 ^ lz <= (2 ^ (64 - lz) - 1) * 2 ^ lz) by (apply Z.mul_le_mono_nonneg_r; lia). lia.
Qed.
Lemma lone_bit f lz : 11 <= lz -> 2 ^ 63 <= f * 2 ^ lz <= 0x80000000000007ff -> f * 2 ^ lz = 2 ^ 63.
Proof.
  intros Hl H. assert (E : 2 ^ lz = 2 ^ (lz - 11) * 2 ^ 11) by (rewrite <- Z.pow_add_r by lia; f_equal; lia).
  rewrite E in *. replace (f * (2 ^ (lz - 11) * 2 ^ 11)) with (f * 2 ^ (lz - 11) * 2 ^ 11) in * by ring. lia.
Qed.
Lemma full_width f lz : 11 <= lz <= 63 -> 2 ^ 52 <= f -> f * 2 ^ lz < 2 ^ 64 -> lz = 11.
Proof.
  intros Hl Hf Hn. destruct (Z.eq_dec lz 11) as [E|E]; [exact E|exfalso].
  assert (2 ^ 12 <= 2 ^ lz) by (apply Z.pow_le_mono_r; lia).
  assert (2 ^ 52 * 2 ^ 12 <= f * 2 ^ lz) by (apply Z.mul_le_mono_nonneg; lia). lia.
Qed.

Theorem convert_ok accurate ints f e : 0 < f < 2 ^ 53 -> -1074 <= e <= 971 -> (e = -1074 \/ 2 ^ 52 <= f) ->
  converts f e (convert accurate ints f e).
Proof.
  intros Hf He Hn. unfold convert. change (0x7ff - exponent_bias) with 972.
  replace (e =? 972) with false by lia. replace (f =? 0) with false by lia.
  destruct (lead_zeros f Hf) as (lz & -> & Hlz & Hnf). cbv zeta.
  destruct (negb accurate && ((-52 <=? e) && (e <=? lz)) && ((0 <=? e) || (u64 (Z.shiftl f (64 + e)) =? 0)) && ints) eqn:O.
  { repeat (apply andb_prop in O as [O ?]). apply andb_prop in H1 as [? ?].
    destruct (ordinal_ok f e lz Hf ltac:(lia) ltac:(lia) ltac:(lia)) as [O1 O2].
    - destruct (orb_prop _ _ H0); [left|right]; lia.
    - cbv zeta in O1, O2. apply conv_ord; assumption. }
  clear O. rewrite Z.shiftl_mul_pow2 by lia. rewrite u64_small by lia.
  assert (Hel : -1137 <= e - lz <= 960) by lia.
  assert (Hee : Z.max (e - lz + 11) (-1074) = e).
  { destruct Hn as [-> | Hn]; [lia|]. pose proof (full_width f lz Hlz Hn ltac:(lia)). lia. }
  destruct (cached_power (e - lz)) as [[[F Fe] x]|] eqn:CP.
  2:{ exfalso. pose proof (all_below_spec _ _ indexes_ok (e - lz + 1137) ltac:(lia)) as I. cbv beta in I.
      replace (e - lz + 1137 - 1137) with (e - lz) in I by lia. unfold index_ok in I. rewrite CP in I. discriminate. }
  destruct (power_entry _ _ _ _ Hel CP) as (HF & Hx & HFe & Hs & Hd10 & HP). rewrite Hee in Hd10. clear CP.
  set (fn := f * 2 ^ lz) in *.
  set (mojo := if fn >? 0x80000000000007ff then 64 else 65).
  assert (P2lz : 0 < 2 ^ lz) by (apply pow2_pos; lia).
  assert (Hm : mojo = 64 /\ fn <> 2 ^ 63 \/ mojo = 65 /\ fn = 2 ^ 63).
  { unfold mojo. rewrite Z.gtb_ltb. destruct (Z.ltb_spec 0x80000000000007ff fn) as [G|G]; [left|right]; (split; [reflexivity|]); [lia|].
    apply lone_bit; unfold fn in *; lia. }
  set (h := 2 ^ (lz + 64 - mojo)).
  assert (Hh : h = 2 ^ lz /\ fn <> 2 ^ 63 \/ 2 * h = 2 ^ lz /\ fn = 2 ^ 63).
  { unfold h. destruct Hm as [[-> E] | [-> E]]; [left; split; [f_equal; lia|exact E]|right]. split; [|exact E].
    replace (2 ^ lz) with (2 ^ (1 + (lz + 64 - 65))) by (f_equal; lia). rewrite Z.pow_add_r by lia. reflexivity. }
  assert (Hh0 : 0 < h) by (apply pow2_pos; lia).
  rewrite Z.shiftr_div_pow2 by lia.
  set (delta := F / 2 ^ (mojo - lz)).
  assert (Pml : 0 < 2 ^ (mojo - lz)) by (apply pow2_pos; lia).
  assert (Phm : h * 2 ^ (mojo - lz) = 2 ^ 64) by (unfold h; rewrite <- Z.pow_add_r by lia; f_equal; lia).
  assert (Hdel : delta * 2 ^ (mojo - lz) <= F < (delta + 1) * 2 ^ (mojo - lz)).
  { unfold delta. pose proof (Z.div_mod F (2 ^ (mojo - lz)) ltac:(lia)). pose proof (Z.mod_pos_bound F (2 ^ (mojo - lz)) Pml). lia. }
  destruct (scaled_bounds _ _ _ _ Hh0 Phm Hdel) as [Hdel64 Hdelta1].
  assert (Hdmin : 512 <= delta).
  { unfold delta. apply Z.div_le_lower_bound; [lia|].
    assert (2 ^ (mojo - lz) <= 2 ^ 54) by (apply Z.pow_le_mono_r; lia). lia. }
  assert (Hdmax : delta < 2 ^ 64).
  { assert (1 * delta <= 2 ^ (mojo - lz) * delta) by (apply Z.mul_le_mono_nonneg_r; lia). lia. }
  clearbody delta mojo.
  unfold scale. pose proof (mul_exact fn F ltac:(lia) ltac:(lia)) as M.
  destruct (mul_64x64_128 fn F) as [high low].
  rewrite (Z.shiftr_div_pow2 low) by lia. set (lsb := low / 2 ^ 63).
  assert (Hlsb : 0 <= lsb <= 1 /\ high * 2 ^ 64 + lsb * 2 ^ 63 <= fn * F < high * 2 ^ 64 + lsb * 2 ^ 63 + 2 ^ 63 /\ 0 <= high < 2 ^ 64).
  { unfold lsb. clear - M. generalize dependent (fn * F). intros z M. lia. }
  clearbody lsb. clear M low. destruct Hlsb as (Hlsb & Hprod & Hhigh).
  rewrite (u64_small (delta + lsb - 1)) by lia. rewrite (u64_small (delta - 2)) by lia.
  rewrite Z.shiftr_div_pow2 by lia. change (2 ^ 1) with 2.
  set (top := high + (delta + lsb - 1) / 2).
  assert (Hff : 2 * fn + 2 ^ lz < 2 ^ 65).
  { apply top_room; unfold fn in *; lia. }
  assert (Hhlz : h <= 2 ^ lz) by (destruct Hh as [[Hh _]|[Hh _]]; lia).
  assert (HQ : 0 < bigQ Fe) by (unfold bigQ; apply Z.mul_pos_pos; [apply pow10_pos|apply pow2_pos]; lia).
  assert (HP0 : 0 < bigP x) by (unfold bigP; apply Z.mul_pos_pos; [apply pow10_pos|apply pow2_pos]; lia).
  assert (Hlf : 2 ^ lz <= fn) by (unfold fn; rewrite <- (Z.mul_1_l (2 ^ lz)) at 1; apply Z.mul_le_mono_nonneg_r; lia).
  destruct (margins fn F lz h (bigP x) (bigQ Fe) (fn * F) high lsb delta top) as (M1 & M2 & M3); auto; try lia.
  assert (Htop : high + lsb <= top) by (unfold top; lia).
  rewrite (u64_small top) by lia.
  assert (Hpos : delta - 2 < top).
  { assert (0 <= (2 * fn - h) * bigP x) by (apply Z.mul_nonneg_nonneg; lia).
    assert (0 < (top - (delta - 2)) * (2 ^ 65 * bigQ Fe)) by lia.
    apply Z.lt_0_sub. apply (Z.mul_pos_cancel_r _ (2 ^ 65 * bigQ Fe)); lia. }
  assert (Hd10' : delta - 2 < 10 * 2 ^ (- (e - lz + (Fe + 64)))).
  { set (s := - (e - lz + (Fe + 64))) in *.
    assert (2 ^ (- (Fe + e)) * 2 ^ lz = 2 ^ s * 2 ^ 64).
    { assert (- (Fe + e) + lz = s + 64) by (unfold s; lia). rewrite <- !Z.pow_add_r by lia. f_equal. lia. }
    assert (F * h <= F * 2 ^ lz) by (apply Z.mul_le_mono_nonneg_l; lia).
    assert (F * 2 ^ lz < 10 * 2 ^ (- (Fe + e)) * 2 ^ lz) by (apply Z.mul_lt_mono_pos_r; lia).
    assert (delta * 2 ^ 64 < 10 * 2 ^ s * 2 ^ 64) by lia. lia. }
  assert (Hratio : top < 10 ^ 16 * (delta - 2)).
  { assert (high < 2 ^ 53 * (delta + 1)).
    { assert (HA : f * 2 ^ lz <= (2 ^ 53) * h).
      { destruct Hh as [[-> _] | [Hh Ef]]; [apply Z.mul_le_mono_nonneg_r; lia|].
        fold fn. rewrite Ef. assert (2 ^ 11 <= 2 ^ lz) by (apply Z.pow_le_mono_r; lia). lia. }
      assert (fn * F <= 2 ^ 53 * h * F) by (apply Z.mul_le_mono_nonneg_r; unfold fn; lia). lia. }
    unfold top. lia. }
  destruct (make_digits_ok accurate top (delta - 2) x (if accurate then u64 (high + lsb) else high) (- (e - lz + (Fe + 64))))
    as (ds & kap & R & Fd & Len & Hkap & Near); try lia.
  { destruct accurate; [rewrite u64_small by lia|]; lia. }
  { destruct accurate; [rewrite u64_small by lia|]; unfold top; lia. }
  replace (e - lz + (Fe + 64)) with (e - lz + (Fe + 64)) in R by lia.
  rewrite R. apply conv_dec; auto; [lia|].
  apply wide_near in Near; [|lia]. destruct Near as [N1 N2].
  set (s := - (e - lz + (Fe + 64))) in *.
  assert (Es : s = - (e - lz + (Fe + 64))) by reflexivity. clearbody s.
  assert (G1 : num (dval ds) (x + kap) * 2 ^ 1075 < (2 * f + 1) * 2 ^ (e + 1074) * den (x + kap)).
  { apply (bracket_upper e lz Fe x s _ kap) with (top := top); auto; lia. }
  assert (G2 : (2 * f - 1) * 2 ^ (e + 1074) * den (x + kap) < num (dval ds) (x + kap) * 2 ^ 1075).
  { rewrite <- (Z.mul_1_l (num _ _ * _)).
    apply (bracket_lower e lz Fe x s _ kap) with (top := top - (delta - 2)); auto; lia. }
  split; [split; assumption|]. intros Ef.
  change (2 ^ 1076) with (2 * 2 ^ 1075). replace (num (dval ds) (x + kap) * (2 * 2 ^ 1075)) with (2 * (num (dval ds) (x + kap) * 2 ^ 1075)) by ring.
  apply (bracket_lower e lz Fe x s _ kap) with (top := top - (delta - 2)); auto; try lia.
  pose proof (full_width f lz Hlz ltac:(lia) ltac:(unfold fn in Hnf; lia)) as E11.
  assert (Efn : fn = 2 ^ 63) by (unfold fn; rewrite Ef, E11; reflexivity).
  destruct Hh as [[_ Hh]|[Hh _]]; [congruence|].
  replace ((4 * f - 1) * 2 ^ lz) with (2 * (2 * fn - h)) by (unfold fn; rewrite <- Hh; ring).
  rewrite <- Z.mul_assoc. apply Z.mul_lt_mono_pos_l; [lia|exact M2].
Qed.

(** * NumericProofs: integers and floating point numbers (proofs). *)
From Verif Require Import Base Tag Gear Tuple TupleProofs TupleMore Numeric.
From Coq Require Import ZifyBool ZifyNat.
Ltac Zify.zify_post_hook ::= Z.div_mod_to_equations.

(** ** Integer types *)
Lemma int_genus_cases g : int_genus g = true ->
  g = g_i8 \/ g = g_i16 \/ g = g_i32 \/ g = g_i64 \/ g = g_u8 \/ g = g_u16 \/ g = g_u32 \/ g = g_u64.
Proof. unfold int_genus, signed_genus, unsigned_genus. lia. Qed.
Ltac int_cases H := destruct (int_genus_cases _ H) as [->|[->|[->|[->|[->|[->|[->| ->]]]]]]].
Lemma signed_int g : signed_genus g = true -> int_genus g = true.
Proof. unfold int_genus. intros ->. reflexivity. Qed.
Lemma unsigned_int g : unsigned_genus g = true -> int_genus g = true.
Proof. unfold int_genus. intros ->. apply Bool.orb_true_r. Qed.

Definition fits (g z : Z) : Prop := int_min g <= z <= int_max g.
Ltac unf_int := unfold fits, int_min, int_max, icast, sgn, nbits, signed_genus, unsigned_genus, u16, u32, u64 in *;
  repeat match goal with
  | H : context [if ?c then _ else _] |- _ => let c' := eval vm_compute in c in change c with c' in H; cbn iota in H
  | |- context [if ?c then _ else _] => let c' := eval vm_compute in c in match c' with true => idtac | false => idtac end; change c with c'; cbn iota
  end.
Lemma pow_vals : 2 ^ 8 = 256 /\ 2 ^ 16 = 65536 /\ 2 ^ 32 = 4294967296 /\ 2 ^ 64 = 18446744073709551616.
Proof. repeat split. Qed.
Lemma sgn_fits n z : 0 < n -> - 2 ^ (n - 1) <= z <= 2 ^ (n - 1) - 1 -> sgn n z = z.
Proof.
  intros Hn Hz. unfold sgn. assert (E : 2 ^ n = 2 * 2 ^ (n - 1)).
  { replace n with (1 + (n - 1)) at 1 by lia. rewrite Z.pow_add_r; lia. }
  set (H := 2 ^ (n - 1)) in *. rewrite E. clearbody H. cbv zeta.
  destruct (Z.ltb_spec z 0) as [A|A].
  - assert (M : z mod (2 * H) = z + 2 * H).
    { symmetry. apply (Z.mod_unique_pos z (2 * H) (-1)); lia. }
    rewrite M. destruct (Z.ltb_spec (z + 2 * H) H); lia.
  - rewrite Z.mod_small by lia. destruct (Z.ltb_spec z H); lia.
Qed.
Lemma sgn_range n z : 0 < n -> - 2 ^ (n - 1) <= sgn n z <= 2 ^ (n - 1) - 1.
Proof.
  intros Hn. unfold sgn. assert (E : 2 ^ n = 2 * 2 ^ (n - 1)).
  { replace n with (1 + (n - 1)) at 1 by lia. rewrite Z.pow_add_r; lia. }
  assert (P : 0 < 2 ^ (n - 1)) by (apply Z.pow_pos_nonneg; lia).
  pose proof (Z.mod_pos_bound z (2 ^ n) ltac:(lia)) as B. cbv zeta.
  destruct (Z.ltb_spec (z mod 2 ^ n) (2 ^ (n - 1))); lia.
Qed.
Lemma sgn_mod n x y : x mod 2 ^ n = y mod 2 ^ n -> sgn n x = sgn n y.
Proof. unfold sgn. intros ->. reflexivity. Qed.
Lemma nbits_pos g : 0 < nbits g.
Proof. unfold nbits. repeat match goal with |- context [if ?c then _ else _] => destruct c end; lia. Qed.
Lemma icast_fits g z : fits g z -> icast g z = z.
Proof.
  unfold fits, int_min, int_max, icast. pose proof (nbits_pos g). destruct (signed_genus g); intros B.
  - apply sgn_fits; lia.
  - apply Z.mod_small. lia.
Qed.
Lemma icast_range g z : fits g (icast g z).
Proof.
  unfold fits, int_min, int_max, icast. pose proof (nbits_pos g). destruct (signed_genus g).
  - apply sgn_range. lia.
  - pose proof (Z.mod_pos_bound z (2 ^ nbits g) ltac:(apply Z.pow_pos_nonneg; lia)). lia.
Qed.
Lemma icast_mod g x y : x mod 2 ^ nbits g = y mod 2 ^ nbits g -> icast g x = icast g y.
Proof. unfold icast. destruct (signed_genus g); [apply sgn_mod|auto]. Qed.
Lemma icast_iff g z : z = icast g z <-> fits g z.
Proof. split; intros H; [rewrite H; apply icast_range|symmetry; apply icast_fits; exact H]. Qed.

(** ** The stored form *)
Lemma mod_lo z a b : 0 < a -> 0 < b -> (z mod (a * b)) mod a = z mod a.
Proof. intros. rewrite Z.rem_mul_r by lia. rewrite Z.mul_comm, Z.mod_add, Z.mod_mod by lia. reflexivity. Qed.
Lemma raw_int_units g z : raw_units g (int_units g z) mod 2 ^ nbits g = z mod 2 ^ nbits g.
Proof.
  assert (N : nbits g = 8 \/ nbits g = 16 \/ nbits g = 32 \/ nbits g = 64).
  { unfold nbits. repeat match goal with |- context [if ?c then _ else _] => destruct c end; lia. }
  unfold raw_units, int_units. destruct N as [->|[->|[->| ->]]]; cbn [Z.leb Z.eqb Z.compare Pos.compare Pos.compare_cont Pos.eqb nth];
    unfold u16, u32.
  - change (2 ^ 16) with (2 ^ 8 * 2 ^ 8). apply mod_lo; reflexivity.
  - apply Z.mod_mod. discriminate.
  - apply Z.mod_mod. discriminate.
  - change (2 ^ 64) with (2 ^ 32 * 2 ^ 32). rewrite <- Z.rem_mul_r by (vm_compute; congruence).
    apply Z.mod_mod. discriminate.
Qed.
Lemma le_value_bytes n : forall x, le_value (le_bytes n x) = x mod 256 ^ Z.of_nat n.
Proof.
  induction n as [|n IH]; intros x.
  - cbn. rewrite Z.mod_1_r. reflexivity.
  - cbn [le_bytes le_value]. rewrite IH. rewrite Nat2Z.inj_succ, Z.pow_succ_r by lia.
    rewrite Z.rem_mul_r by (try apply Z.pow_pos_nonneg; lia). reflexivity.
Qed.
Lemma le_bytes_length n x : length (le_bytes n x) = n.
Proof. revert x. induction n; intros x; cbn; auto. Qed.
Lemma le_bytes_range n : forall x, Forall isbyte (le_bytes n x).
Proof. induction n; intros x; cbn; constructor; auto. unfold isbyte. apply Z.mod_pos_bound. lia. Qed.
Lemma nbits_bytes g : 256 ^ Z.of_nat (Z.to_nat (nbits g / 8)) = 2 ^ nbits g.
Proof.
  unfold nbits. repeat match goal with |- context [if ?c then _ else _] => destruct c end; reflexivity.
Qed.
Lemma raw_int_bytes g z : le_value (int_bytes g z) = z mod 2 ^ nbits g.
Proof. unfold int_bytes. rewrite le_value_bytes, nbits_bytes. reflexivity. Qed.
Lemma int_units_wf g z : int_genus g = true \/ is_float_genus g = true -> wf_pay g (int_units g z).
Proof.
  unfold is_float_genus. intros [H|H].
  - int_cases H; unfold wf_pay; cbn; try reflexivity; eexists; (split; [reflexivity|]);
      unfold u16; change 65536 with (2 ^ 16); apply Z.mod_pos_bound; reflexivity.
  - assert (g = g_f32 \/ g = g_f64) as [->| ->] by lia; reflexivity.
Qed.
Lemma int_fixed g : int_genus g = true \/ is_float_genus g = true -> fixed_genus g = true.
Proof.
  unfold is_float_genus. intros [H|H].
  - int_cases H; reflexivity.
  - assert (g = g_f32 \/ g = g_f64) as [->| ->] by lia; reflexivity.
Qed.

(** ** Floating point *)
(** the value is this integer *)
Definition denotes (v : fval) (z : Z) : Prop :=
  match v with
  | FFin n a e => if 0 <=? e then smant n a * 2 ^ e = z else smant n a = z * 2 ^ (- e)
  | _ => False
  end.
Definition finite (v : fval) : bool := match v with FFin _ _ _ => true | _ => false end.
Record good_fmt (f : fmt) : Prop := { gf_p : 2 <= f_p f; gf_w : 2 <= f_w f - f_p f }.
Lemma good32 : good_fmt binary32. Proof. constructor; cbn; lia. Qed.
Lemma good64 : good_fmt binary64. Proof. constructor; cbn; lia. Qed.

Lemma enc_fin f neg a e : good_fmt f -> 0 < a < 2 ^ f_p f ->
  f_emin f <= Z.log2 a + e - (f_p f - 1) -> Z.log2 a + e <= f_bias f ->
  let n := a * 2 ^ (f_p f - 1 - Z.log2 a) in
  let q := Z.log2 a + e - (f_p f - 1) in
  2 ^ (f_p f - 1) <= n < 2 ^ f_p f /\
  enc f (FFin neg a e) = (if neg then 2 ^ (f_w f - 1) else 0) + (q - f_emin f) * 2 ^ (f_p f - 1) + n /\
  1 <= q - f_emin f + 1 < f_expmax f.
Proof.
  intros [Gp Gw] Ha Hlo Hhi. intros n q. unfold q in *.
  destruct (Z.log2_spec a) as [L1 L2]; [lia|].
  assert (L0 : 0 <= Z.log2 a) by apply Z.log2_nonneg.
  assert (L3 : Z.log2 a <= f_p f - 1).
  { destruct (Z.le_gt_cases (Z.log2 a) (f_p f - 1)); [assumption|].
    assert (2 ^ f_p f <= 2 ^ Z.log2 a) by (apply Z.pow_le_mono_r; lia). lia. }
  assert (N1 : 2 ^ (f_p f - 1) = 2 ^ Z.log2 a * 2 ^ (f_p f - 1 - Z.log2 a)).
  { rewrite <- Z.pow_add_r by lia. f_equal. lia. }
  assert (N2 : 2 ^ f_p f = 2 ^ Z.succ (Z.log2 a) * 2 ^ (f_p f - 1 - Z.log2 a)).
  { rewrite <- Z.pow_add_r by lia. f_equal. lia. }
  assert (P : 0 < 2 ^ (f_p f - 1 - Z.log2 a)) by (apply Z.pow_pos_nonneg; lia).
  assert (Nr : 2 ^ (f_p f - 1) <= n < 2 ^ f_p f) by (unfold n; nia).
  assert (Ex : f_expmax f = 2 * f_bias f + 1).
  { unfold f_expmax, f_bias. replace (f_w f - f_p f) with (1 + (f_w f - f_p f - 1)) at 1 by lia.
    rewrite Z.pow_add_r by lia. lia. }
  assert (Eq : Z.log2 a + e - (f_p f - 1) - f_emin f + 1 < f_expmax f).
  { rewrite Ex. unfold f_emin. lia. }
  split; [exact Nr|]. split; [|split; [lia|exact Eq]].
  unfold enc. destruct (Z.eqb_spec a 0); [lia|]. cbv zeta. rewrite Z.max_l by lia.
  assert (R : rne a (Z.log2 a + e - (f_p f - 1) - e) = n).
  { unfold rne. destruct (Z.leb_spec (Z.log2 a + e - (f_p f - 1) - e) 0); [|lia].
    unfold n. f_equal. f_equal. lia. }
  rewrite R. rewrite Z.min_r.
  - destruct neg; lia.
  - unfold f_inf. assert (E2 : 2 ^ f_p f = 2 * 2 ^ (f_p f - 1)).
    { replace (f_p f) with (1 + (f_p f - 1)) at 1 by lia. rewrite Z.pow_add_r; lia. }
    assert (0 < 2 ^ (f_p f - 1)) by (apply Z.pow_pos_nonneg; lia). nia.
Qed.
Lemma dec_parts f neg ex fr : good_fmt f -> 0 <= fr < 2 ^ (f_p f - 1) -> 1 <= ex < f_expmax f ->
  dec f ((if neg : bool then 2 ^ (f_w f - 1) else 0) + (ex * 2 ^ (f_p f - 1) + fr)) =
  FFin neg (2 ^ (f_p f - 1) + fr) (ex - 1 + f_emin f).
Proof.
  intros [Gp Gw] Hf He. unfold dec, f_expmax in *.
  set (P := 2 ^ (f_p f - 1)) in *. set (W := 2 ^ (f_w f - f_p f)) in *.
  assert (PP : 0 < P) by (apply Z.pow_pos_nonneg; lia).
  assert (PW : 0 < W) by (apply Z.pow_pos_nonneg; lia).
  assert (E : 2 ^ (f_w f - 1) = P * W).
  { unfold P, W. rewrite <- Z.pow_add_r by lia. f_equal. lia. }
  rewrite E. set (s := if neg then 1 else 0).
  assert (S : (if neg then P * W else 0) = s * (P * W)) by (unfold s; destruct neg; lia).
  rewrite S. clearbody P W. clear E.
  assert (B : 0 <= ex * P + fr < P * W) by nia.
  assert (D1 : (s * (P * W) + (ex * P + fr)) / (P * W) = s).
  { rewrite Z.div_add_l by nia. rewrite (Z.div_small (ex * P + fr)) by lia. lia. }
  assert (D2 : (s * (P * W) + (ex * P + fr)) / P = s * W + ex).
  { replace (s * (P * W) + (ex * P + fr)) with ((s * W + ex) * P + fr) by ring.
    rewrite Z.div_add_l by lia. rewrite Z.div_small by lia. lia. }
  assert (D3 : (s * (P * W) + (ex * P + fr)) mod P = fr).
  { replace (s * (P * W) + (ex * P + fr)) with (fr + (s * W + ex) * P) by ring.
    rewrite Z.mod_add by lia. apply Z.mod_small. lia. }
  rewrite D1, D2, D3. rewrite Z.add_comm, Z.mod_add by lia. rewrite (Z.mod_small ex) by lia.
  destruct (Z.eqb_spec ex (W - 1)); [lia|]. destruct (Z.eqb_spec ex 0); [lia|].
  f_equal. unfold s. destruct neg; reflexivity.
Qed.
(** a value that fits the format survives *)
Lemma enc_dec f neg a e : good_fmt f -> 0 < a < 2 ^ f_p f ->
  f_emin f <= Z.log2 a + e - (f_p f - 1) -> Z.log2 a + e <= f_bias f ->
  dec f (enc f (FFin neg a e)) = FFin neg (a * 2 ^ (f_p f - 1 - Z.log2 a)) (e - (f_p f - 1 - Z.log2 a)).
Proof.
  intros G Ha Hlo Hhi. destruct (enc_fin f neg a e G Ha Hlo Hhi) as (N & E & X). rewrite E.
  set (n := a * 2 ^ (f_p f - 1 - Z.log2 a)) in *. set (q := Z.log2 a + e - (f_p f - 1)) in *.
  assert (E2 : 2 ^ f_p f = 2 * 2 ^ (f_p f - 1)).
  { destruct G. replace (f_p f) with (1 + (f_p f - 1)) at 1 by lia. rewrite Z.pow_add_r; lia. }
  pose proof (dec_parts f neg (q - f_emin f + 1) (n - 2 ^ (f_p f - 1)) G ltac:(lia) X) as D.
  replace ((if neg then 2 ^ (f_w f - 1) else 0) + (q - f_emin f) * 2 ^ (f_p f - 1) + n)
    with ((if neg then 2 ^ (f_w f - 1) else 0) + ((q - f_emin f + 1) * 2 ^ (f_p f - 1) + (n - 2 ^ (f_p f - 1)))) by ring.
  rewrite D. f_equal; [lia|unfold q; lia].
Qed.
Lemma enc_range f neg a e : good_fmt f -> 0 < a < 2 ^ f_p f ->
  f_emin f <= Z.log2 a + e - (f_p f - 1) -> Z.log2 a + e <= f_bias f ->
  0 <= enc f (FFin neg a e) < 2 ^ f_w f.
Proof.
  intros G Ha Hlo Hhi. destruct (enc_fin f neg a e G Ha Hlo Hhi) as (N & E & X). rewrite E.
  destruct G as [Gp Gw].
  assert (E2 : 2 ^ f_p f = 2 * 2 ^ (f_p f - 1)).
  { replace (f_p f) with (1 + (f_p f - 1)) at 1 by lia. rewrite Z.pow_add_r; lia. }
  assert (E3 : 2 ^ f_w f = 2 * 2 ^ (f_w f - 1)).
  { replace (f_w f) with (1 + (f_w f - 1)) at 1 by lia. rewrite Z.pow_add_r; lia. }
  assert (E4 : 2 ^ (f_w f - 1) = 2 ^ (f_p f - 1) * 2 ^ (f_w f - f_p f)).
  { rewrite <- Z.pow_add_r by lia. f_equal. lia. }
  unfold f_expmax in X. assert (0 < 2 ^ (f_p f - 1)) by (apply Z.pow_pos_nonneg; lia).
  destruct neg; nia.
Qed.
(** small integers are exact *)
Definition fmt2 (f : fmt) : Prop := f = binary32 \/ f = binary64.
Lemma fmt2_good f : fmt2 f -> good_fmt f.
Proof. intros [->| ->]; [apply good32|apply good64]. Qed.
Lemma log2_lt_p p z : 0 < p -> 0 < Z.abs z < 2 ^ p -> 0 <= Z.log2 (Z.abs z) <= p - 1.
Proof.
  intros Hp H. split; [apply Z.log2_nonneg|]. destruct H as [H1 H2]. apply Z.log2_lt_pow2 in H2; lia.
Qed.
Lemma of_int_denotes f z : fmt2 f -> Z.abs z < 2 ^ f_p f -> denotes (of_int f z) z.
Proof.
  intros F H. pose proof (fmt2_good f F) as G. unfold of_int, int_bits.
  destruct (Z.eq_dec z 0) as [->|N].
  - destruct F as [->| ->]; vm_compute; reflexivity.
  - pose proof (log2_lt_p (f_p f) z ltac:(destruct G; lia) ltac:(lia)) as L.
    rewrite enc_dec; auto; [|lia| |].
    + unfold denotes. destruct (Z.leb_spec 0 (0 - (f_p f - 1 - Z.log2 (Z.abs z)))) as [A|A].
      * replace (f_p f - 1 - Z.log2 (Z.abs z)) with 0 by lia. unfold smant.
        destruct (Z.ltb_spec z 0); cbn [Z.sub Z.opp Z.add Z.pow]; lia.
      * replace (- (0 - (f_p f - 1 - Z.log2 (Z.abs z)))) with (f_p f - 1 - Z.log2 (Z.abs z)) by lia.
        set (K := 2 ^ _). unfold smant. destruct (Z.ltb_spec z 0) as [B|B].
        -- rewrite (Z.abs_neq z) by lia. ring.
        -- rewrite (Z.abs_eq z) by lia. ring.
    + destruct F as [->| ->]; cbn in *; unfold f_emin, f_bias; cbn; lia.
    + destruct F as [->| ->]; cbn in *; unfold f_bias; cbn; lia.
Qed.
Lemma int_bits_range f z : fmt2 f -> Z.abs z < 2 ^ f_p f -> 0 <= int_bits f z < 2 ^ f_w f.
Proof.
  intros F H. pose proof (fmt2_good f F) as G. unfold int_bits.
  destruct (Z.eq_dec z 0) as [->|N].
  - destruct F as [->| ->]; vm_compute; split; congruence.
  - pose proof (log2_lt_p (f_p f) z ltac:(destruct G; lia) ltac:(lia)) as L.
    apply enc_range; auto; [lia| |]; destruct F as [->| ->]; cbn in *; unfold f_emin, f_bias; cbn; lia.
Qed.
(** widening float to double is exact *)
Lemma dec_shape f b : good_fmt f -> 0 <= b < 2 ^ f_w f -> finite (dec f b) = true ->
  exists neg a e, dec f b = FFin neg a e /\ 0 <= a < 2 ^ f_p f /\ f_emin f <= e /\ e <= f_bias f - (f_p f - 1).
Proof.
  intros [Gp Gw] Hb. unfold dec.
  set (neg := negb _). set (ex := (b / _) mod _). set (fr := b mod _).
  assert (Pp : 0 < 2 ^ (f_p f - 1)) by (apply Z.pow_pos_nonneg; lia).
  assert (Hfr : 0 <= fr < 2 ^ (f_p f - 1)) by (apply Z.mod_pos_bound; exact Pp).
  assert (Hex : 0 <= ex < 2 ^ (f_w f - f_p f)) by (apply Z.mod_pos_bound; apply Z.pow_pos_nonneg; lia).
  assert (E2 : 2 ^ f_p f = 2 * 2 ^ (f_p f - 1)).
  { replace (f_p f) with (1 + (f_p f - 1)) at 1 by lia. rewrite Z.pow_add_r; lia. }
  assert (Ex : 2 ^ (f_w f - f_p f) = 2 * f_bias f + 2).
  { unfold f_bias. replace (f_w f - f_p f) with (1 + (f_w f - f_p f - 1)) at 1 by lia.
    rewrite Z.pow_add_r by lia. lia. }
  assert (B1 : 1 <= f_bias f).
  { unfold f_bias. assert (2 ^ 1 <= 2 ^ (f_w f - f_p f - 1)) by (apply Z.pow_le_mono_r; lia). lia. }
  clearbody ex fr neg. unfold f_expmax in *.
  destruct (Z.eqb_spec ex (2 ^ (f_w f - f_p f) - 1)); [destruct (fr =? 0); discriminate|].
  destruct (Z.eqb_spec ex 0); intros _.
  - exists neg, fr, (f_emin f). split; [reflexivity|]. unfold f_emin. lia.
  - exists neg, (2 ^ (f_p f - 1) + fr), (ex - 1 + f_emin f). split; [reflexivity|]. unfold f_emin. lia.
Qed.

(** ** Comparison *)
Lemma cmp_scale n1 a1 e1 n2 a2 e2 K : K <= e1 -> K <= e2 ->
  cmp_fin n1 a1 e1 n2 a2 e2 = (smant n1 a1 * 2 ^ (e1 - K) ?= smant n2 a2 * 2 ^ (e2 - K)).
Proof.
  intros H1 H2. unfold cmp_fin. set (m := Z.min e1 e2).
  assert (M : m <= e1 /\ m <= e2 /\ K <= m) by (unfold m; lia). clearbody m.
  replace (e1 - K) with ((e1 - m) + (m - K)) by lia. replace (e2 - K) with ((e2 - m) + (m - K)) by lia.
  rewrite !Z.pow_add_r by lia. rewrite !Z.mul_assoc.
  assert (P : 0 < 2 ^ (m - K)) by (apply Z.pow_pos_nonneg; lia).
  apply Zmult_compare_compat_r. lia.
Qed.
Lemma denotes_scale n a e c K : K <= e -> K <= 0 -> denotes (FFin n a e) c -> smant n a * 2 ^ (e - K) = c * 2 ^ (- K).
Proof.
  unfold denotes. intros H1 H2. destruct (Z.leb_spec 0 e) as [A|A]; intros D.
  - replace (e - K) with (e + - K) by lia. rewrite Z.pow_add_r by lia. rewrite Z.mul_assoc, D. reflexivity.
  - rewrite D. rewrite <- Z.mul_assoc, <- Z.pow_add_r by lia. f_equal. f_equal. lia.
Qed.
Lemma trunc_cmp n a e t c K : 0 <= a -> K <= e -> K <= 0 -> ftrunc (FFin n a e) = Some t ->
  (smant n a * 2 ^ (e - K) <= c * 2 ^ (- K) -> t <= c) /\ (c * 2 ^ (- K) <= smant n a * 2 ^ (e - K) -> c <= t).
Proof.
  intros Ha H1 H2. cbn [ftrunc]. intros E. injection E as <-.
  assert (PK : 0 < 2 ^ (- K)) by (apply Z.pow_pos_nonneg; lia).
  destruct (Z.leb_spec 0 e) as [A|A].
  - replace (e - K) with (e + - K) by lia. rewrite Z.pow_add_r by lia.
    assert (S : smant n (a * 2 ^ e) = smant n a * 2 ^ e) by (unfold smant; destruct n; ring).
    rewrite S. split; intros L; nia.
  - assert (EK : 2 ^ (- K) = 2 ^ (- e) * 2 ^ (e - K)).
    { rewrite <- Z.pow_add_r by lia. f_equal. lia. }
    rewrite EK, Z.mul_assoc.
    assert (PD : 0 < 2 ^ (- e)) by (apply Z.pow_pos_nonneg; lia).
    assert (PE : 0 < 2 ^ (e - K)) by (apply Z.pow_pos_nonneg; lia).
    set (D := 2 ^ (- e)) in *. set (E' := 2 ^ (e - K)) in *. clearbody D E'.
    pose proof (Z.div_mod a D ltac:(lia)) as DM. pose proof (Z.mod_pos_bound a D PD) as MB.
    unfold smant. destruct n; split; intros L.
    + apply Z.mul_le_mono_pos_r in L; [|lia]. nia.
    + apply Z.mul_le_mono_pos_r in L; [|lia]. nia.
    + apply Z.mul_le_mono_pos_r in L; [|lia]. nia.
    + apply Z.mul_le_mono_pos_r in L; [|lia]. nia.
Qed.
Lemma fle_trunc_hi v x c t : (forall n a e, v = FFin n a e -> 0 <= a) -> denotes x c -> fle v x = true ->
  ftrunc v = Some t -> t <= c.
Proof.
  intros Hv D L T. destruct v as [|?|n a e]; try discriminate. destruct x as [|?|n2 a2 e2]; try contradiction.
  set (K := Z.min 0 (Z.min e e2)). assert (K <= e /\ K <= e2 /\ K <= 0) as (K1 & K2 & K3) by (unfold K; lia).
  clearbody K. specialize (Hv n a e eq_refl).
  destruct (trunc_cmp n a e t c K Hv K1 K3 T) as [G _]. apply G.
  unfold fle, fcmp in L. rewrite (cmp_scale _ _ _ _ _ _ K K1 K2) in L.
  rewrite (denotes_scale _ _ _ _ K K2 K3 D) in L.
  destruct (Z.compare_spec (smant n a * 2 ^ (e - K)) (c * 2 ^ (- K))); lia || discriminate.
Qed.
Lemma fle_trunc_lo v x c t : (forall n a e, v = FFin n a e -> 0 <= a) -> denotes x c -> fle x v = true ->
  ftrunc v = Some t -> c <= t.
Proof.
  intros Hv D L T. destruct v as [|?|n a e]; try discriminate. destruct x as [|?|n2 a2 e2]; try contradiction.
  set (K := Z.min 0 (Z.min e e2)). assert (K <= e /\ K <= e2 /\ K <= 0) as (K1 & K2 & K3) by (unfold K; lia).
  clearbody K. specialize (Hv n a e eq_refl).
  destruct (trunc_cmp n a e t c K Hv K1 K3 T) as [_ G]. apply G.
  unfold fle, fcmp in L. rewrite (cmp_scale _ _ _ _ _ _ K K2 K1) in L.
  rewrite (denotes_scale _ _ _ _ K K2 K3 D) in L.
  destruct (Z.compare_spec (c * 2 ^ (- K)) (smant n a * 2 ^ (e - K))); lia || discriminate.
Qed.
Lemma cmp_fin_antisym n1 a1 e1 n2 a2 e2 : cmp_fin n2 a2 e2 n1 a1 e1 = CompOpp (cmp_fin n1 a1 e1 n2 a2 e2).
Proof. unfold cmp_fin. rewrite (Z.min_comm e2 e1). apply Z.compare_antisym. Qed.
Lemma not_lt_le x y : fnan x = false -> fnan y = false -> flt x y = false -> fle y x = true.
Proof.
  unfold flt, fle, fcmp. destruct x as [|a|n a e], y as [|b|n2 a2 e2]; try discriminate; intros _ _.
  - destruct a, b; cbn; congruence.
  - destruct a; cbn; congruence.
  - destruct b; cbn; congruence.
  - rewrite (cmp_fin_antisym n a e). destruct (cmp_fin n a e n2 a2 e2); cbn; congruence.
Qed.
Lemma dec_nonneg f b n a e : good_fmt f -> dec f b = FFin n a e -> 0 <= a.
Proof.
  intros [Gp Gw]. unfold dec.
  assert (Pp : 0 < 2 ^ (f_p f - 1)) by (apply Z.pow_pos_nonneg; lia).
  pose proof (Z.mod_pos_bound b _ Pp).
  destruct (_ =? f_expmax f); [destruct (_ =? 0); discriminate|].
  destruct (_ =? 0); intros E; injection E as <- <- <-; lia.
Qed.

(** ** The setters *)
Lemma set_integer_i64_ok g v z : fits g_i64 v -> set_integer_i64 g v = PInt z -> signed_genus g = true /\ z = v /\ fits g v.
Proof.
  intros F. unfold set_integer_i64. destruct (Z.eqb_spec g g_i64) as [->|N].
  - intros E. injection E as <-. split; [reflexivity|]. split; [reflexivity|exact F].
  - destruct (signed_genus g) eqn:S; [|discriminate]. destruct (Z.eqb_spec v (icast g v)) as [E|E]; [|discriminate].
    intros Q. injection Q as <-. split; [reflexivity|]. split; [congruence|]. apply icast_iff. exact E.
Qed.
Lemma set_integer_u64_ok g v z : 0 <= v -> set_integer_u64 g v = PInt z -> signed_genus g = true /\ z = v /\ fits g v.
Proof.
  intros F. unfold set_integer_u64. destruct (Z.gtb_spec v (2 ^ 63 - 1)); [discriminate|].
  rewrite sgn_fits by (cbn; lia). apply set_integer_i64_ok. unfold fits, int_min, int_max. cbn. lia.
Qed.
Lemma set_unsigned_u64_ok g v z : fits g_u64 v -> set_unsigned_u64 g v = PInt z -> unsigned_genus g = true /\ z = v /\ fits g v.
Proof.
  intros F. unfold set_unsigned_u64. destruct (Z.eqb_spec g g_u64) as [->|N].
  - intros E. injection E as <-. split; [reflexivity|]. split; [reflexivity|exact F].
  - destruct (unsigned_genus g) eqn:S; [|discriminate]. destruct (Z.eqb_spec v (icast g v)) as [E|E]; [|discriminate].
    intros Q. injection Q as <-. split; [reflexivity|]. split; [congruence|]. apply icast_iff. exact E.
Qed.
Lemma set_unsigned_i64_ok g v z : fits g_i64 v -> set_unsigned_i64 g v = PInt z -> signed_genus g = true /\ z = v /\ fits g v.
Proof.
  intros F. unfold set_unsigned_i64. destruct (Z.ltb_spec v 0); [discriminate|].
  unfold fits, int_min, int_max in F. cbn in F. unfold u64. rewrite Z.mod_small by (cbn; lia). apply set_integer_u64_ok. lia.
Qed.
Lemma set_number_int_ok lo hi g v z : lo <= v <= hi -> set_number_int lo hi g v = PInt z ->
  int_genus g = true /\ z = v /\ fits g v.
Proof.
  intros B. unfold set_number_int. destruct (g =? g_f32); [destruct (_ || _); discriminate|].
  destruct (g =? g_f64); [destruct (_ || _); discriminate|]. destruct (int_genus g); [|discriminate].
  destruct (_ || _) eqn:E; [discriminate|]. intros Q. injection Q as <-. apply Bool.orb_false_iff in E. destruct E as [E1 E2].
  assert (F : fits g v).
  { unfold fits. apply Bool.andb_false_iff in E1, E2. split.
    - destruct E1 as [E1|E1]; apply Z.ltb_ge in E1; lia.
    - destruct E2 as [E2|E2]; rewrite Z.gtb_ltb in E2; apply Z.ltb_ge in E2; lia. }
  split; [reflexivity|]. split; [apply icast_fits; exact F|exact F].
Qed.
Lemma set_number_int_flt lo hi g v b : lo <= v <= hi -> set_number_int lo hi g v = PFlt b ->
  (g = g_f32 /\ Z.abs v <= safe32 /\ b = int_bits binary32 v) \/ (g = g_f64 /\ Z.abs v <= safe64 /\ b = int_bits binary64 v).
Proof.
  intros B. unfold set_number_int. destruct (Z.eqb_spec g g_f32) as [->|_].
  - destruct (_ || _) eqn:E; [discriminate|]. intros Q. injection Q as <-. left. split; [reflexivity|]. split; [|reflexivity].
    apply Bool.orb_false_iff in E. destruct E as [E1 E2]. rewrite Z.gtb_ltb in E2. apply Z.ltb_ge in E1, E2. clear -E1 E2. lia.
  - destruct (Z.eqb_spec g g_f64) as [->|_].
    + destruct (_ || _) eqn:E; [discriminate|]. intros Q. injection Q as <-. right. split; [reflexivity|]. split; [|reflexivity].
      apply Bool.orb_false_iff in E. destruct E as [E1 E2]. apply Bool.andb_false_iff in E1, E2.
      rewrite !Z.gtb_ltb in E2. rewrite !Z.ltb_ge in E1, E2. clear -E1 E2 B. lia.
    + destruct (int_genus g); [|discriminate]. destruct (_ || _); discriminate.
Qed.
Lemma call_int g c z : call_ok c -> call_plan g c = PInt z -> int_genus g = true /\ z = call_arg c /\ fits g z.
Proof.
  destruct c; cbn [call_ok call_plan call_arg]; intros B E.
  - destruct (set_integer_i64_ok g v z) as (A1 & -> & A2); auto; split; auto using signed_int.
  - destruct (set_integer_u64_ok g v z) as (A1 & -> & A2); auto; [lia|]; split; auto using signed_int.
  - destruct (set_unsigned_u64_ok g v z) as (A1 & -> & A2); auto; split; auto using unsigned_int.
  - destruct (set_unsigned_i64_ok g v z) as (A1 & -> & A2); auto; split; auto using signed_int.
  - destruct (set_number_int_ok _ _ g v z B E) as (A1 & -> & A2); auto.
  - destruct (set_number_int_ok _ _ g v z B E) as (A1 & -> & A2); auto.
  - destruct (set_number_int_ok _ _ g v z B E) as (A1 & -> & A2); auto.
  - destruct (set_number_int_ok _ _ g v z B E) as (A1 & -> & A2); auto.
Qed.
Definition fmt_of (g : Z) : fmt := if g =? g_f32 then binary32 else binary64.
Lemma call_flt g c b : call_ok c -> call_plan g c = PFlt b ->
  is_float_genus g = true /\ Z.abs (call_arg c) < 2 ^ f_p (fmt_of g) /\ b = int_bits (fmt_of g) (call_arg c).
Proof.
  assert (X : forall lo hi v, lo <= v <= hi -> set_number_int lo hi g v = PFlt b ->
    is_float_genus g = true /\ Z.abs v < 2 ^ f_p (fmt_of g) /\ b = int_bits (fmt_of g) v).
  { intros lo hi v B E. destruct (set_number_int_flt lo hi g v b B E) as [(-> & A & ->)|(-> & A & ->)];
      (split; [reflexivity|split; [|reflexivity]]); cbn; unfold safe32, safe64 in A; lia. }
  destruct c; cbn [call_ok call_plan call_arg]; intros B E; try (eapply X; eassumption).
  - unfold set_integer_i64 in E. destruct (g =? g_i64); [discriminate|]. destruct (signed_genus g); [|discriminate]. destruct (_ =? _); discriminate.
  - unfold set_integer_u64, set_integer_i64 in E. destruct (_ >? _); [discriminate|]. destruct (g =? g_i64); [discriminate|]. destruct (signed_genus g); [|discriminate]. destruct (_ =? _); discriminate.
  - unfold set_unsigned_u64 in E. destruct (g =? g_u64); [discriminate|]. destruct (unsigned_genus g); [|discriminate]. destruct (_ =? _); discriminate.
  - unfold set_unsigned_i64, set_integer_u64, set_integer_i64 in E. destruct (_ <? _); [discriminate|]. destruct (_ >? _); [discriminate|]. destruct (g =? g_i64); [discriminate|]. destruct (signed_genus g); [|discriminate]. destruct (_ =? _); discriminate.
Qed.

(** ** Reading back what was written *)
Lemma fmt_of_2 g : fmt2 (fmt_of g).
Proof. unfold fmt_of, fmt2. destruct (g =? g_f32); auto. Qed.
Lemma nbits_fmt g : is_float_genus g = true -> nbits g = f_w (fmt_of g).
Proof. unfold is_float_genus. intros H. assert (g = g_f32 \/ g = g_f64) as [->| ->] by lia; reflexivity. Qed.
Lemma raw_float g b : is_float_genus g = true -> 0 <= b < 2 ^ nbits g -> raw_units g (int_units g b) = b.
Proof.
  unfold is_float_genus. intros H. assert (g = g_f32 \/ g = g_f64) as [->| ->] by lia.
  - change (raw_units g_f32 (int_units g_f32 b)) with (b mod 2 ^ 32). apply Z.mod_small.
  - change (raw_units g_f64 (int_units g_f64 b)) with (b mod 2 ^ 32 + 2 ^ 32 * ((b / 2 ^ 32) mod 2 ^ 32)).
    intros B. rewrite <- Z.rem_mul_r by (vm_compute; congruence). apply Z.mod_small. exact B.
Qed.
Lemma int_read g disc z : fits g z -> loose_int g disc (Some (int_units g z)) = Got z.
Proof.
  intros F. cbn [loose_int]. f_equal. rewrite <- (icast_fits g z F) at 2. apply icast_mod. apply raw_int_units.
Qed.
Lemma nth_map_seq (f : nat -> Z) n i d : (i < n)%nat -> nth i (map f (seq 0 n)) d = f i.
Proof.
  intros H. rewrite (nth_indep _ d (f O)) by (rewrite map_length, seq_length; exact H).
  rewrite map_nth, seq_nth by exact H. reflexivity.
Qed.
Lemma pread_pwrite m off bs : pread (pwrite m off bs) off (Z.of_nat (length bs)) = bs.
Proof.
  unfold pread, pwrite. rewrite Nat2Z.id.
  apply nth_ext with (d := 0) (d' := 0); [rewrite map_length, seq_length; reflexivity|].
  intros i Hi. rewrite map_length, seq_length in Hi.
  rewrite nth_map_seq by exact Hi.
  replace ((off <=? off + Z.of_nat i) && (off + Z.of_nat i <? off + Z.of_nat (length bs))) with true by lia.
  f_equal. lia.
Qed.
Lemma num_bytes g : int_genus g = true \/ is_float_genus g = true ->
  preplaced_bytes g = nbits g / 8 /\ denil_len g = preplaced_bytes g.
Proof.
  unfold is_float_genus. intros [H|H].
  - int_cases H; split; reflexivity.
  - assert (g = g_f32 \/ g = g_f64) as [->| ->] by lia; split; reflexivity.
Qed.
Lemma fixed_get_set g disc m off z : int_genus g = true \/ is_float_genus g = true ->
  disc = false \/ int_bytes g z <> denil g ->
  fixed_get g disc (pwrite m off (int_bytes g z)) off = RVal (int_bytes g z).
Proof.
  intros Hg H. destruct (num_bytes g Hg) as [E1 E2]. unfold fixed_get.
  assert (L : preplaced_bytes g = Z.of_nat (length (int_bytes g z))).
  { unfold int_bytes. rewrite le_bytes_length, E1, Z2Nat.id; [reflexivity|]. pose proof (nbits_pos g). lia. }
  rewrite L, pread_pwrite. unfold is_denil. rewrite E2, L, pread_pwrite.
  destruct H as [->|H]; [reflexivity|]. destruct (list_eq_dec _ _ _); [contradiction|]. rewrite Bool.andb_false_r. reflexivity.
Qed.
Lemma pwrite_far m off bs x : x < off \/ off + Z.of_nat (length bs) <= x -> pwrite m off bs x = m x.
Proof. intros H. unfold pwrite. replace ((off <=? x) && (x <? off + Z.of_nat (length bs))) with false by lia. reflexivity. Qed.
Lemma int_bytes_length g z : length (int_bytes g z) = Z.to_nat (nbits g / 8).
Proof. apply le_bytes_length. Qed.

(** ** Floating point to integer *)
Lemma to_int_ok g v t : ftrunc v = Some t -> fits g t -> to_int g v = Some (PInt t).
Proof. unfold to_int, fits. intros -> H. replace ((int_min g <=? t) && (t <=? int_max g)) with true by lia. reflexivity. Qed.
Definition denotesb (v : fval) (z : Z) : bool :=
  match v with
  | FFin n a e => if 0 <=? e then smant n a * 2 ^ e =? z else smant n a =? z * 2 ^ (- e)
  | _ => false
  end.
Lemma denotesb_ok v z : denotesb v z = true -> denotes v z.
Proof. unfold denotesb, denotes. destruct v; try discriminate. destruct (0 <=? e); apply Z.eqb_eq. Qed.
Lemma denotes_finite v z : denotes v z -> finite v = true.
Proof. destruct v; cbn; auto; contradiction. Qed.
Lemma finite_nan v : finite v = true -> fnan v = false.
Proof. destruct v; cbn; congruence. Qed.
(** between two integers *)
Lemma between f b x y lo hi : good_fmt f -> denotes x lo -> denotes y hi ->
  fle x (dec f b) = true -> fle (dec f b) y = true -> exists t, ftrunc (dec f b) = Some t /\ lo <= t <= hi.
Proof.
  intros G Dx Dy L1 L2. pose proof (fun n a e => dec_nonneg f b n a e G) as NN.
  destruct (dec f b) as [|[]|n a e] eqn:E.
  - cbn in L1. destruct x; discriminate.
  - destruct x; try contradiction. cbn in L1. discriminate.
  - destruct y; try contradiction. cbn in L2. discriminate.
  - destruct (ftrunc (FFin n a e)) as [t|] eqn:T; [|discriminate]. exists t. split; [reflexivity|].
    split; [eapply fle_trunc_lo; eassumption|eapply fle_trunc_hi; eassumption].
Qed.
Lemma bounds_ok f g : fmt2 f -> g = g_i32 \/ g = g_i64 \/ g = g_u32 \/ g = g_u64 ->
  exists lo hi, denotes (roundtrip_lower f g) lo /\ denotes (roundtrip_upper f g) hi /\ int_min g <= lo /\ hi <= int_max g.
Proof.
  intros F H. destruct F as [->| ->]; destruct H as [->|[->|[->| ->]]].
  - exists (int_min g_i32 + 128), (int_max g_i32 - 127). (split; [apply denotesb_ok; vm_compute; reflexivity|split; [apply denotesb_ok; vm_compute; reflexivity|split; apply Z.leb_le; vm_compute; reflexivity]]).
  - exists (int_min g_i64 + 549755813888), (int_max g_i64 - 549755813887). (split; [apply denotesb_ok; vm_compute; reflexivity|split; [apply denotesb_ok; vm_compute; reflexivity|split; apply Z.leb_le; vm_compute; reflexivity]]).
  - exists 0, (int_max g_u32 - 255). (split; [apply denotesb_ok; vm_compute; reflexivity|split; [apply denotesb_ok; vm_compute; reflexivity|split; apply Z.leb_le; vm_compute; reflexivity]]).
  - exists 0, (int_max g_u64 - 1099511627775). (split; [apply denotesb_ok; vm_compute; reflexivity|split; [apply denotesb_ok; vm_compute; reflexivity|split; apply Z.leb_le; vm_compute; reflexivity]]).
  - exists (int_min g_i32 + 1), (int_max g_i32). (split; [apply denotesb_ok; vm_compute; reflexivity|split; [apply denotesb_ok; vm_compute; reflexivity|split; apply Z.leb_le; vm_compute; reflexivity]]).
  - exists (int_min g_i64 + 1024), (int_max g_i64 - 1023). (split; [apply denotesb_ok; vm_compute; reflexivity|split; [apply denotesb_ok; vm_compute; reflexivity|split; apply Z.leb_le; vm_compute; reflexivity]]).
  - exists 0, (int_max g_u32). (split; [apply denotesb_ok; vm_compute; reflexivity|split; [apply denotesb_ok; vm_compute; reflexivity|split; apply Z.leb_le; vm_compute; reflexivity]]).
  - exists 0, (int_max g_u64 - 2047). (split; [apply denotesb_ok; vm_compute; reflexivity|split; [apply denotesb_ok; vm_compute; reflexivity|split; apply Z.leb_le; vm_compute; reflexivity]]).
Qed.
Lemma small_limits f g : fmt2 f -> g = g_i8 \/ g = g_i16 \/ g = g_u8 \/ g = g_u16 ->
  denotes (of_int f (int_min g)) (int_min g) /\ denotes (of_int f (int_max g)) (int_max g).
Proof.
  intros F H. destruct F as [->| ->]; destruct H as [->|[->|[->| ->]]]; split; apply denotesb_ok; vm_compute; reflexivity.
Qed.
Lemma set_number_float_ok f g b : fmt2 f -> int_genus g = true ->
  (set_number_float f g b = Some PRange) \/
  (exists t, set_number_float f g b = Some (PInt t) /\ ftrunc (dec f b) = Some t /\ fits g t).
Proof.
  intros F G. pose proof (fmt2_good f F) as GF. unfold set_number_float.
  assert (NF : is_float_genus g = false /\ (g =? g_d64) = false /\ (g =? g_f32) = false /\ (g =? g_f64) = false) by (int_cases G; repeat split).
  destruct NF as (N1 & N2 & N3 & N4). rewrite N1, N2, N3, N4. cbn [orb negb]. rewrite Bool.andb_true_r.
  destruct (fnan (dec f b)) eqn:NaN; [left; reflexivity|]. rewrite G.
  destruct ((g =? g_i8) || (g =? g_i16) || (g =? g_u8) || (g =? g_u16)) eqn:Small.
  - destruct (small_limits f g F) as [D1 D2]; [lia|].
    destruct (flt (dec f b) _ || flt _ (dec f b)) eqn:E; [left; reflexivity|]. right.
    apply Bool.orb_false_iff in E. destruct E as [E1 E2].
    apply not_lt_le in E1; [|exact NaN|apply finite_nan; eapply denotes_finite; exact D1].
    apply not_lt_le in E2; [|apply finite_nan; eapply denotes_finite; exact D2|exact NaN].
    destruct (between f b _ _ _ _ GF D1 D2 E1 E2) as (t & T & R). exists t.
    split; [apply to_int_ok; [exact T|exact R]|]. split; [exact T|exact R].
  - destruct (bounds_ok f g F) as (lo & hi & D1 & D2 & B1 & B2).
    { int_cases G; try discriminate Small; auto. }
    unfold is_safe_roundtrip. destruct (fle _ _ && fle _ _) eqn:E; [|left; reflexivity]. right. cbn [negb].
    apply Bool.andb_true_iff in E. destruct E as [E1 E2].
    destruct (between f b _ _ _ _ GF D1 D2 E1 E2) as (t & T & R). exists t.
    assert (FT : fits g t) by (unfold fits; lia).
    split; [apply to_int_ok; [exact T|exact FT]|]. split; [exact T|exact FT].
Qed.

(** ** Widening *)
Definition same_value (x y : fval) : Prop :=
  match x, y with
  | FNan, FNan => True
  | FInf a, FInf b => a = b
  | FFin n1 a1 e1, FFin n2 a2 e2 => n1 = n2 /\ cmp_fin n1 a1 e1 n2 a2 e2 = Eq
  | _, _ => False
  end.
Lemma widen_exact b : 0 <= b < 2 ^ 32 -> same_value (dec binary32 b) (dec binary64 (enc binary64 (dec binary32 b))).
Proof.
  intros B. destruct (dec binary32 b) as [|[]|n a e] eqn:E; [exact I|reflexivity|reflexivity|].
  destruct (dec_shape binary32 b good32 B) as (n' & a' & e' & E' & A & L1 & L2); [rewrite E; reflexivity|].
  rewrite E in E'. injection E' as <- <- <-. cbn [f_p binary32] in A.
  change (f_emin binary32) with (-149) in L1. change (f_bias binary32 - (f_p binary32 - 1)) with 104 in L2.
  destruct (Z.eq_dec a 0) as [->|N].
  - assert (D : dec binary64 (enc binary64 (FFin n 0 e)) = FFin n 0 (-1074)) by (destruct n; reflexivity).
    rewrite D. split; [reflexivity|]. unfold cmp_fin. destruct n; reflexivity.
  - assert (LG : 0 <= Z.log2 a <= 23).
    { split; [apply Z.log2_nonneg|]. destruct A as [A1 A2]. apply Z.log2_lt_pow2 in A2; lia. }
    rewrite enc_dec; [|apply good64|cbn [f_p binary64]; lia| |].
    + split; [reflexivity|]. rewrite (cmp_scale _ _ _ _ _ _ (e - (f_p binary64 - 1 - Z.log2 a))); cbn [f_p binary64]; try lia.
      replace (e - (e - (53 - 1 - Z.log2 a))) with (53 - 1 - Z.log2 a) by lia.
      replace (e - (53 - 1 - Z.log2 a) - (e - (53 - 1 - Z.log2 a))) with 0 by lia.
      apply Z.compare_eq_iff. unfold smant. destruct n; cbn [Z.pow]; ring.
    + cbn [f_p binary64]. change (f_emin binary64) with (-1074). lia.
    + change (f_bias binary64) with 1023. lia.
Qed.

(** ** Narrowing *)
Lemma rne_le n k m : 0 <= n -> 0 < k -> n <= m * 2 ^ k -> rne n k <= m.
Proof.
  intros Hn Hk H. unfold rne. destruct (Z.leb_spec k 0); [lia|]. cbv zeta.
  assert (P : 0 < 2 ^ k) by (apply Z.pow_pos_nonneg; lia).
  assert (Ph : 0 < 2 ^ (k - 1)) by (apply Z.pow_pos_nonneg; lia).
  assert (E : 2 ^ k = 2 * 2 ^ (k - 1)) by (replace k with (1 + (k - 1)) at 1 by lia; rewrite Z.pow_add_r; lia).
  pose proof (Z.div_mod n (2 ^ k) ltac:(lia)) as DM. pose proof (Z.mod_pos_bound n (2 ^ k) P) as MB.
  assert (Q : n / 2 ^ k <= m) by (apply Z.div_le_upper_bound; lia).
  destruct (Z.ltb_spec (n mod 2 ^ k) (2 ^ (k - 1))); [exact Q|].
  assert (n / 2 ^ k < m) by nia.
  destruct (Z.ltb_spec (2 ^ (k - 1)) (n mod 2 ^ k)); [lia|]. destruct (Z.even _); lia.
Qed.
Lemma dec_finite f neg B : good_fmt f -> 0 <= B < f_inf f ->
  finite (dec f ((if neg : bool then 2 ^ (f_w f - 1) else 0) + B)) = true.
Proof.
  intros [Gp Gw]. unfold f_inf, f_expmax, dec, f_expmax.
  set (P := 2 ^ (f_p f - 1)) in *. set (W := 2 ^ (f_w f - f_p f)) in *.
  assert (PP : 0 < P) by (apply Z.pow_pos_nonneg; lia).
  assert (PW : 0 < W) by (apply Z.pow_pos_nonneg; lia).
  assert (E : 2 ^ (f_w f - 1) = W * P).
  { unfold P, W. rewrite <- Z.pow_add_r by lia. f_equal. lia. }
  rewrite E. clearbody P W. intros HB.
  assert (EX : (((if neg then W * P else 0) + B) / P) mod W = B / P).
  { destruct neg.
    - rewrite Z.div_add_l by lia. rewrite Z.add_comm. replace W with (1 * W) at 1 by lia. rewrite Z.mod_add by lia.
      apply Z.mod_small. split; [apply Z.div_pos; lia|apply Z.div_lt_upper_bound; nia].
    - rewrite Z.add_0_l. apply Z.mod_small. split; [apply Z.div_pos; lia|apply Z.div_lt_upper_bound; nia]. }
  rewrite EX. assert (B / P < W - 1) by (apply Z.div_lt_upper_bound; lia).
  destruct (Z.eqb_spec (B / P) (W - 1)); [lia|]. destruct (_ =? 0); reflexivity.
Qed.
Lemma narrow_bits neg a e : 0 <= a ->
  flt flt_max (FFin neg a e) = false -> flt (FFin neg a e) flt_lowest = false ->
  finite (dec binary32 (enc binary32 (FFin neg a e))) = true.
Proof.
  intros Ha H1 H2. unfold enc. apply dec_finite; [apply good32|].
  change (f_inf binary32) with (255 * 2 ^ 23). change (f_p binary32 - 1) with 23. change (f_emin binary32) with (-149).
  destruct (Z.eqb_spec a 0) as [->|N]; [lia|]. cbv zeta.
  assert (C : forall K, K <= e -> K <= 104 -> a * 2 ^ (e - K) <= (2 ^ 24 - 1) * 2 ^ (104 - K)).
  { intros K K1 K2. destruct neg.
    - apply not_lt_le in H2; [|reflexivity|reflexivity]. unfold fle, fcmp, flt_lowest in H2.
      rewrite (cmp_scale _ _ _ _ _ _ K) in H2 by lia. unfold smant in H2.
      destruct (Z.compare_spec (- (2 ^ 24 - 1) * 2 ^ (104 - K)) (- a * 2 ^ (e - K))); try discriminate; lia.
    - apply not_lt_le in H1; [|reflexivity|reflexivity]. unfold fle, fcmp, flt_max in H1.
      rewrite (cmp_scale _ _ _ _ _ _ K) in H1 by lia. unfold smant in H1.
      destruct (Z.compare_spec (a * 2 ^ (e - K)) ((2 ^ 24 - 1) * 2 ^ (104 - K))); try discriminate; lia. }
  destruct (Z.log2_spec a) as [L1 L2]; [lia|]. pose proof (Z.log2_nonneg a) as L0.
  set (l := Z.log2 a) in *. clearbody l.
  assert (Q : l + e <= 127).
  { destruct (Z.le_gt_cases (l + e) 127) as [|G]; [assumption|exfalso].
    set (K := Z.min e 104) in *. specialize (C K ltac:(lia) ltac:(lia)).
    assert (X1 : 2 ^ l * 2 ^ (e - K) <= a * 2 ^ (e - K)) by (apply Z.mul_le_mono_nonneg_r; [apply Z.pow_nonneg; lia|lia]).
    rewrite <- Z.pow_add_r in X1 by lia.
    assert (X2 : 2 ^ (128 - K) <= 2 ^ (l + (e - K))) by (apply Z.pow_le_mono_r; lia).
    replace (128 - K) with (24 + (104 - K)) in X2 by lia. rewrite Z.pow_add_r in X2 by lia.
    assert (0 < 2 ^ (104 - K)) by (apply Z.pow_pos_nonneg; lia). lia. }
  set (q := Z.max (l + e - 23) (-149)). assert (Hq : l + e - 23 <= q /\ -149 <= q <= 104) by (unfold q; lia). clearbody q.
  assert (R0 : 0 <= rne a (q - e)).
  { unfold rne. destruct (_ <=? 0); [apply Z.mul_nonneg_nonneg; [lia|apply Z.pow_nonneg; lia]|]. cbv zeta.
    assert (0 <= a / 2 ^ (q - e)) by (apply Z.div_pos; [lia|apply Z.pow_pos_nonneg; lia] || (destruct (Z.le_gt_cases 0 (q - e)); [apply Z.div_pos; [lia|apply Z.pow_pos_nonneg; lia]|rewrite Z.pow_neg_r by lia; rewrite Zdiv_0_r; lia])).
    destruct (_ <? _); [lia|]. destruct (_ <? _); [lia|]. destruct (Z.even _); lia. }
  assert (R : rne a (q - e) <= 2 ^ 24 /\ (q = 104 -> rne a (q - e) <= 2 ^ 24 - 1)).
  { destruct (Z.le_gt_cases (q - e) 0) as [K|K].
    - unfold rne. destruct (Z.leb_spec (q - e) 0); [|lia]. replace (- (q - e)) with (e - q) by lia. split.
      + assert (X : a * 2 ^ (e - q) <= 2 ^ Z.succ l * 2 ^ (e - q)) by (apply Z.mul_le_mono_nonneg_r; [apply Z.pow_nonneg; lia|lia]).
        rewrite <- Z.pow_add_r in X by lia. assert (2 ^ (Z.succ l + (e - q)) <= 2 ^ 24) by (apply Z.pow_le_mono_r; lia). lia.
      + intros ->. specialize (C 104 ltac:(lia) ltac:(lia)). change (104 - 104) with 0 in C. rewrite Z.mul_1_r in C. exact C.
    - split.
      + apply rne_le; [lia|lia|]. rewrite <- Z.pow_add_r by lia.
        assert (2 ^ Z.succ l <= 2 ^ (24 + (q - e))) by (apply Z.pow_le_mono_r; lia). lia.
      + intros ->. apply rne_le; [lia|lia|]. specialize (C e ltac:(lia) ltac:(lia)).
        replace (e - e) with 0 in C by lia. rewrite Z.mul_1_r in C. exact C. }
  destruct R as [R1 R2]. destruct (Z.eq_dec q 104) as [->|NQ]; [specialize (R2 eq_refl)|]; lia.
Qed.
Lemma narrow_finite b : let v := dec binary64 b in fnan v = false -> finf v = false ->
  flt flt_max v || flt v flt_lowest = false -> finite (dec binary32 (enc binary32 v)) = true.
Proof.
  intros v. pose proof (fun n a e => dec_nonneg binary64 b n a e good64) as NN. fold v in NN.
  destruct v as [|?|n a e]; try discriminate. intros _ _ H. apply Bool.orb_false_iff in H. destruct H.
  apply narrow_bits; auto. eapply NN. reflexivity.
Qed.

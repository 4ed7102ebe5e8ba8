(** * Properties of the index scan *)
From Verif Require Import Base Hippeus HippeusProofs Scan ScanProofs.
From Verif Require Numeric.
From Coq Require Import ZifyBool ZifyNat.
Ltac Zify.zify_post_hook ::= Z.div_mod_to_equations.

(** ** C16. Field lookup gives the same answer on every CPU *)
(** [r] is the first of the entries between [begin] and [e] that carries [tag], or there is none *)
Definition first_entry (m : bmem) (begin e tag : Z) (r : option Z) : Prop :=
  match r with
  | Some p => begin <= p < e /\ (p - begin) mod 4 = 0 /\ m (p + 2) + 256 * m (p + 3) = tag /\
              forall q, begin <= q < p -> (q - begin) mod 4 = 0 -> m (q + 2) + 256 * m (q + 3) <> tag
  | None => forall q, begin <= q < e -> (q - begin) mod 4 = 0 -> m (q + 2) + 256 * m (q + 3) <> tag
  end.
Lemma tag_at_bytes : forall m q, m (q + 2) + 256 * m (q + 3) = tag_at m q.
Proof. intros. unfold tag_at, half. replace (q + 2 + 1) with (q + 3) by lia. reflexivity. Qed.
Lemma first_is_first_entry : forall m begin n tag, first_entry m begin (begin + 4 * Z.of_nat n) tag (first m tag n begin).
Proof.
  intros m begin n tag. destruct (first m tag n begin) as [p|] eqn:E.
  - destruct (first_some _ _ _ _ _ E) as (k & Hk & P & T & B). cbn [first_entry]. rewrite tag_at_bytes. repeat split; try lia.
    intros q Hq Mq. rewrite tag_at_bytes. replace q with (begin + 4 * ((q - begin) / 4)) by lia. apply B. lia.
  - cbn [first_entry]. intros q Hq Mq. rewrite tag_at_bytes. replace q with (begin + 4 * ((q - begin) / 4)) by lia.
    apply (first_none _ _ _ _ E). lia.
Qed.
Lemma hollow_first_entry : forall m begin e tag, e <= begin -> first_entry m begin e tag None.
Proof. intros m begin e tag H q Hq. lia. Qed.
Lemma by_first : forall m begin e tag scan, (e - begin) mod 4 = 0 ->
  (e < begin -> fst (scan m begin e tag) = None (A := Z) :> option Z) ->
  (forall n, fst (scan m begin (begin + 4 * Z.of_nat n) tag) = first m tag n begin) ->
  first_entry m begin e tag (fst (A := option Z) (B := trace) (scan m begin e tag)).
Proof.
  intros m begin e tag scan M Hh Hf. destruct (Z.lt_ge_cases e begin) as [L|G].
  - rewrite (Hh L). apply hollow_first_entry. lia.
  - replace e with (begin + 4 * Z.of_nat (Z.to_nat ((e - begin) / 4))) by lia. rewrite Hf. apply first_is_first_entry.
Qed.
Theorem C16_referential : forall m begin e tag, (e - begin) mod 4 = 0 ->
  first_entry m begin e tag (fst (scan_referential m begin e tag)).
Proof.
  intros m begin e tag M. apply by_first; [assumption| |].
  - intros L. unfold scan_referential. rewrite referential_hollow by lia. reflexivity.
  - intros n. unfold scan_referential. apply referential_first; lia.
Qed.
Theorem C16_unroll : forall m begin e tag, (e - begin) mod 4 = 0 ->
  first_entry m begin e tag (fst (scan_unroll m begin e tag)).
Proof.
  intros m begin e tag M. apply by_first; [assumption| |].
  - intros L. unfold scan_unroll. replace ((e - begin) / 4 <? 0) with true by lia. reflexivity.
  - intros n. apply unroll_first.
Qed.
Lemma hollow_int : forall w lg m begin e tag, 4 <= w -> e < begin -> scan_int w lg m begin e tag = (None, []).
Proof.
  intros w lg m begin e tag Hw L. unfold scan_int, short_int. replace (e - begin <? 4 * w) with true by lia.
  replace (e - begin <? 4) with true by lia. reflexivity.
Qed.
Theorem C16_SSE2 : forall m begin e tag, (e - begin) mod 4 = 0 ->
  first_entry m begin e tag (fst (scan_SSE2 m begin e tag)).
Proof.
  intros m begin e tag M. apply by_first; [assumption| |].
  - intros L. unfold scan_SSE2. rewrite hollow_int by lia. reflexivity.
  - intros n. apply scan_int_first. lia.
Qed.
Theorem C16_AVX2 : forall m begin e tag, (e - begin) mod 4 = 0 ->
  first_entry m begin e tag (fst (scan_AVX2 m begin e tag)).
Proof.
  intros m begin e tag M. apply by_first; [assumption| |].
  - intros L. unfold scan_AVX2. rewrite hollow_int by lia. reflexivity.
  - intros n. apply scan_int_first. lia.
Qed.
(** AVX compares tags as denormal floats: exact as long as the thread does not treat denormals as zeros *)
Theorem C16_AVX : forall m begin e tag, bytes_mem m -> 0 <= tag < 65536 -> (e - begin) mod 4 = 0 ->
  first_entry m begin e tag (fst (scan_AVX false m begin e tag)).
Proof.
  intros m begin e tag Hm Ht M. apply by_first; [assumption| |].
  - intros L. unfold scan_AVX, short_ps. replace (e - begin <? 32) with true by lia.
    replace (e - begin <? 4) with true by lia. reflexivity.
  - intros n. apply scan_AVX_first; assumption.
Qed.
Theorem C16_same_on_every_cpu : forall c m begin e tag, bytes_mem m -> 0 <= tag < 65536 -> (e - begin) mod 4 = 0 ->
  first_entry m begin e tag (fst (resolve c false m begin e tag)).
Proof.
  intros [s a a2] m begin e tag Hm Ht M. unfold resolve. cbn [has_sse2 has_avx has_avx2].
  destruct a2; [apply C16_AVX2; assumption|]. destruct a; [apply C16_AVX; assumption|].
  destruct s; [apply C16_SSE2; assumption|apply C16_unroll; assumption].
Qed.
Lemma first_entry_unique : forall m begin e tag r r', first_entry m begin e tag r -> first_entry m begin e tag r' -> r = r'.
Proof.
  intros m begin e tag [p|] [p'|] A B; cbn [first_entry] in A, B.
  - f_equal. destruct A as (A1 & A2 & A3 & A4), B as (B1 & B2 & B3 & B4).
    destruct (Z.lt_trichotomy p p') as [L|[?|L]]; [exfalso|assumption|exfalso].
    + apply (B4 p); assumption || lia.
    + apply (A4 p'); assumption || lia.
  - destruct A as (A1 & A2 & A3 & _). exfalso. exact (B p A1 A2 A3).
  - destruct B as (B1 & B2 & B3 & _). exfalso. exact (A p' B1 B2 B3).
  - reflexivity.
Qed.
Theorem C16_two_cpus_agree : forall c c' m begin e tag, bytes_mem m -> 0 <= tag < 65536 -> (e - begin) mod 4 = 0 ->
  fst (resolve c false m begin e tag) = fst (resolve c' false m begin e tag).
Proof. intros. apply (first_entry_unique m begin e tag); apply C16_same_on_every_cpu; assumption. Qed.

(** Walking a multi-value field: [lookup], then [next] until the end, meets every entry with the tag once and in order *)
Fixpoint walk (scan : bmem -> Z -> Z -> Z -> option Z * trace) (fuel : nat) m (cur : option Z) e tag : list Z :=
  match fuel, cur with
  | S f, Some p => p :: walk scan f m (fst (next scan m (Some p) e tag)) e tag
  | _, _ => []
  end.
Fixpoint entries_of (m : bmem) (tag : Z) (n : nat) (a : Z) : list Z :=
  match n with O => [] | S k => (if m (a + 2) + 256 * m (a + 3) =? tag then [a] else []) ++ entries_of m tag k (a + 4) end.
Lemma walk_first : forall scan m tag, (forall n a, fst (scan m a (a + 4 * Z.of_nat n) tag) = first m tag n a) ->
  forall n fuel a, (n <= fuel)%nat ->
  walk scan fuel m (first m tag n a) (a + 4 * Z.of_nat n) tag = entries_of m tag n a.
Proof.
  intros scan m tag H. induction n; intros fuel a Hf.
  - cbn. destruct fuel; reflexivity.
  - cbn [first entries_of]. rewrite tag_at_bytes, (Z.eqb_sym (tag_at m a)). destruct (tag =? tag_at m a).
    + destruct fuel; [lia|]. cbn [walk next app]. f_equal.
      replace (a + 4 * Z.of_nat (S n)) with (a + 4 + 4 * Z.of_nat n) by lia. rewrite H. apply IHn. lia.
    + cbn [app]. replace (a + 4 * Z.of_nat (S n)) with (a + 4 + 4 * Z.of_nat n) by lia. apply IHn. lia.
Qed.
Theorem C16_walk_meets_every_entry : forall c m begin n tag, bytes_mem m -> 0 <= tag < 65536 ->
  let e := begin + 4 * Z.of_nat n in
  walk (resolve c false) (S n) m (fst (lookup (resolve c false) m begin e tag)) e tag = entries_of m tag n begin.
Proof.
  intros c m begin n tag Hm Ht e.
  assert (F : forall k a, fst (resolve c false m a (a + 4 * Z.of_nat k) tag) = first m tag k a).
  { intros k a. apply (first_entry_unique m a (a + 4 * Z.of_nat k) tag).
    - apply C16_same_on_every_cpu; try assumption. replace (a + 4 * Z.of_nat k - a) with (Z.of_nat k * 4) by lia. apply Z.mod_mul. lia.
    - apply first_is_first_entry. }
  unfold lookup, e. rewrite F. apply walk_first; [exact F|lia].
Qed.

(** a single-precision number, as it is seen with and without MXCSR.DAZ *)
Definition single (x : Z) : Numeric.fval := Numeric.dec Numeric.binary32 x.
Definition flushed (daz : bool) (v : Numeric.fval) : Numeric.fval :=
  match v with Numeric.FFin n a e => if daz && (a <? 2 ^ 23) then Numeric.FFin false 0 0 else v | _ => v end.
Lemma single_spec x : 0 <= x < 2 ^ 32 ->
  (f_nan x = true /\ single x = Numeric.FNan) \/
  (f_abs x = 0x7f800000 /\ single x = Numeric.FInf (2147483648 <=? x)) \/
  (f_abs x < 0x7f800000 /\ exists a e, single x = Numeric.FFin (2147483648 <=? x) a e /\
     0 <= a < 16777216 /\ -149 <= e /\ (-149 < e -> 8388608 <= a) /\ f_abs x = a + (e + 149) * 8388608).
Proof.
  intros B. unfold single, Numeric.dec, f_nan, f_abs, Numeric.f_expmax, Numeric.f_emin, Numeric.f_bias. cbn [Numeric.f_w Numeric.f_p Numeric.binary32]. cbv zeta.
  change (2 ^ (32 - 1)) with 2147483648. change (2 ^ (24 - 1)) with 8388608. change (2 ^ (32 - 24)) with 256. change (2 ^ 31) with 2147483648.
  change (2 ^ 32) with 4294967296 in B.
  replace (negb (x / 2147483648 =? 0)) with (2147483648 <=? x) by lia.
  change (1 - (2 ^ (32 - 24 - 1) - 1) - (24 - 1)) with (-149).
  destruct (Z.eqb_spec ((x / 8388608) mod 256) (256 - 1)) as [E|E].
  - destruct (Z.eqb_spec (x mod 8388608) 0) as [F|F]; [right; left|left]; (split; [lia|reflexivity]).
  - right. right. split; [lia|]. destruct (Z.eqb_spec ((x / 8388608) mod 256) 0) as [F|F]; eexists; eexists; (split; [reflexivity|]); lia.
Qed.
Lemma smant_zero n a : Numeric.smant n a = 0 <-> a = 0.
Proof. unfold Numeric.smant. destruct n; lia. Qed.
Lemma smant_abs n a : 0 <= a -> Z.abs (Numeric.smant n a) = a.
Proof. unfold Numeric.smant. destruct n; lia. Qed.
Lemma cmp_zero_l n e n2 a2 e2 : Numeric.cmp_fin n 0 e n2 a2 e2 = Eq <-> a2 = 0.
Proof.
  unfold Numeric.cmp_fin. cbv zeta. rewrite Z.compare_eq_iff.
  assert (P : 0 < 2 ^ (e2 - Z.min e e2)) by (apply Z.pow_pos_nonneg; lia).
  rewrite <- (smant_zero n2 a2). replace (Numeric.smant n 0) with 0 by (destruct n; reflexivity). rewrite Z.mul_0_l.
  set (q := 2 ^ _) in *. clearbody q. generalize (Numeric.smant n2 a2). intros z. split; [|intros ->; reflexivity].
  intros H. symmetry in H. apply Z.mul_eq_0 in H. lia.
Qed.
Lemma cmp_zero_r n e n2 a2 e2 : Numeric.cmp_fin n2 a2 e2 n 0 e = Eq <-> a2 = 0.
Proof.
  rewrite <- (cmp_zero_l n e n2 a2 e2). unfold Numeric.cmp_fin. cbv zeta. rewrite !Z.compare_eq_iff. rewrite (Z.min_comm e2 e). split; intros H; symmetry; exact H.
Qed.
Lemma cmp_single n1 a1 e1 n2 a2 e2 :
  0 <= a1 < 16777216 -> -149 <= e1 -> (-149 < e1 -> 8388608 <= a1) -> 0 <= a2 < 16777216 -> -149 <= e2 -> (-149 < e2 -> 8388608 <= a2) ->
  (Numeric.cmp_fin n1 a1 e1 n2 a2 e2 = Eq <-> (e1 = e2 /\ a1 = a2 /\ (n1 = n2 \/ a1 = 0))).
Proof.
  intros A1 E1 N1 A2 E2 N2. unfold Numeric.cmp_fin. cbv zeta. rewrite Z.compare_eq_iff.
  assert (P : forall k, 0 < k -> 2 <= 2 ^ k).
  { intros k Hk. change 2 with (2 ^ 1) at 1. apply Z.pow_le_mono_r; lia. }
  assert (X : forall n a e m b d, 0 <= a < 16777216 -> 8388608 <= b -> e < d -> Numeric.smant n a * 2 ^ (e - e) = Numeric.smant m b * 2 ^ (d - e) -> False).
  { intros n a e m b d Ha Hb L H. specialize (P (d - e) ltac:(lia)). rewrite Z.sub_diag, Z.mul_1_r in H.
    assert (H' : a = b * 2 ^ (d - e)).
    { rewrite <- (smant_abs n a) by lia. rewrite <- (smant_abs m b) by lia. rewrite H, Z.abs_mul. f_equal. apply Z.abs_eq. lia. }
    clear H. assert (b * 2 <= b * 2 ^ (d - e)) by (apply Z.mul_le_mono_nonneg_l; lia). lia. }
  destruct (Z.lt_trichotomy e1 e2) as [L|[->|L]].
  - rewrite Z.min_l by lia. split; [|lia]. intros H. exfalso. eapply X; [| | |exact H]; lia.
  - rewrite Z.min_id, Z.sub_diag, !Z.mul_1_r. unfold Numeric.smant. destruct n1, n2; split; intros H; try (destruct H as (_ & -> & [?|?]); (discriminate || lia)); try lia;
      (split; [reflexivity|]; split; [lia|]); (left; reflexivity) || (right; lia).
  - rewrite Z.min_r by lia. split; [|lia]. intros H. exfalso. symmetry in H. eapply X; [| | |exact H]; lia.
Qed.
(** each side is not a number, infinite, flushed to zero, or kept *)
Lemma side daz z : 0 <= z < 2 ^ 32 ->
  (f_nan (f_flush daz z) = true /\ flushed daz (single z) = Numeric.FNan) \/
  (f_nan (f_flush daz z) = false /\ f_flush daz z = z /\ f_abs z = 0x7f800000 /\ flushed daz (single z) = Numeric.FInf (2147483648 <=? z)) \/
  (f_flush daz z = 0 /\ flushed daz (single z) = Numeric.FFin false 0 0) \/
  (f_nan (f_flush daz z) = false /\ f_flush daz z = z /\ f_abs z < 0x7f800000 /\ exists a e, flushed daz (single z) = Numeric.FFin (2147483648 <=? z) a e /\
     0 <= a < 16777216 /\ -149 <= e /\ (-149 < e -> 8388608 <= a) /\ f_abs z = a + (e + 149) * 8388608).
Proof.
  intros Hz. unfold f_flush. change (2 ^ 23) with 8388608.
  destruct (single_spec z Hz) as [(N & ->)|[(N & ->)|(N & a & e & -> & A & E & NN & V)]].
  - left. unfold f_nan in *. destruct (Z.ltb_spec (f_abs z) 8388608); [lia|]. rewrite Bool.andb_false_r. auto.
  - right. left. destruct (Z.ltb_spec (f_abs z) 8388608); [lia|]. rewrite Bool.andb_false_r. unfold f_nan. rewrite N. auto.
  - right. right. cbn [flushed]. change (2 ^ 23) with 8388608.
    assert (Q : (f_abs z <? 8388608) = (a <? 8388608)) by lia. rewrite Q. destruct (daz && (a <? 8388608)).
    + left. auto.
    + right. split; [unfold f_nan; lia|]. split; [reflexivity|]. split; [exact N|]. exists a, e. auto.
Qed.
Lemma by_parts z : 0 <= z < 2 ^ 32 -> z = f_abs z + (if 2147483648 <=? z then 2147483648 else 0).
Proof. intros B. unfold f_abs. change (2 ^ 31) with 2147483648. change (2 ^ 32) with 4294967296 in B. destruct (Z.leb_spec 2147483648 z); lia. Qed.
Lemma some_eq c : Some c = Some Eq <-> c = Eq.
Proof. split; congruence. Qed.
(** The AVX routine compares tags as single-precision numbers; its comparison is the one of IEEE 754,
    as the model of floating point numbers used for the numeric fields has it. *)
Theorem C16_float_comparison : forall daz x y, 0 <= x < 2 ^ 32 -> 0 <= y < 2 ^ 32 ->
  (f_eq daz x y = true <-> Numeric.fcmp (flushed daz (single x)) (flushed daz (single y)) = Some Eq).
Proof.
  intros daz x y Hx Hy. unfold f_eq. cbv zeta. pose proof (by_parts x Hx) as Px. pose proof (by_parts y Hy) as Py.
  destruct (side daz x Hx) as [(N & ->)|[(N & Fx & Ax & ->)|[(Fx & ->)|(N & Fx & Ax & a & e & -> & A & E & NN & V)]]].
  - rewrite N. cbn [negb andb]. split; [discriminate|destruct (flushed daz (single y)); discriminate].
  - rewrite N. cbn [negb andb]. rewrite Fx, Ax. change (2139095040 =? 0) with false. cbn [andb]. rewrite Bool.orb_false_r.
    destruct (side daz y Hy) as [(N' & ->)|[(N' & Fy & Ay & ->)|[(Fy & ->)|(N' & Fy & Ay & a' & e' & -> & A' & E' & NN' & V')]]].
    + rewrite N'. cbn. split; discriminate.
    + rewrite N', Fy. cbn [negb andb Numeric.fcmp]. rewrite some_eq, Z.eqb_eq.
      destruct (2147483648 <=? x), (2147483648 <=? y); cbn [Bool.eqb]; split; intros H; try reflexivity; try discriminate; lia.
    + rewrite Fy. cbn [Numeric.fcmp]. split; [intros H; exfalso|destruct (_ <=? _); discriminate].
      apply andb_prop in H. destruct H as [_ H]. apply Z.eqb_eq in H. subst x. vm_compute in Ax. discriminate.
    + rewrite Fy. cbn [Numeric.fcmp]. split; [intros H; exfalso|destruct (2147483648 <=? x); discriminate].
      apply andb_prop in H. destruct H as [_ H]. apply Z.eqb_eq in H. subst y. lia.
  - rewrite Fx. change (f_nan 0) with false. change (f_abs 0) with 0. cbn [negb andb].
    destruct (side daz y Hy) as [(N' & ->)|[(N' & Fy & Ay & ->)|[(Fy & ->)|(N' & Fy & Ay & a' & e' & -> & A' & E' & NN' & V')]]].
    + rewrite N'. cbn. split; discriminate.
    + rewrite N', Fy. cbn [negb andb Numeric.fcmp]. split; [|destruct (2147483648 <=? y); discriminate]. intros H. exfalso.
      destruct (2147483648 <=? y); lia.
    + rewrite Fy. vm_compute. tauto.
    + rewrite N', Fy. cbn [negb andb Numeric.fcmp]. rewrite some_eq, cmp_zero_l. change (0 =? 0) with true. cbn [andb].
      destruct (2147483648 <=? y); split; intros H; nia.
  - rewrite N, Fx. cbn [negb andb].
    destruct (side daz y Hy) as [(N' & ->)|[(N' & Fy & Ay & ->)|[(Fy & ->)|(N' & Fy & Ay & a' & e' & -> & A' & E' & NN' & V')]]].
    + rewrite N'. cbn. split; discriminate.
    + rewrite N', Fy. cbn [negb andb Numeric.fcmp]. split; [|destruct (2147483648 <=? y); discriminate]. intros H. exfalso.
      destruct (Z.eqb_spec x y) as [->|]; [lia|]. cbn [orb] in H. apply andb_prop in H. destruct H as [_ H]. lia.
    + rewrite Fy. change (f_nan 0) with false. change (f_abs 0) with 0. cbn [negb andb Numeric.fcmp]. rewrite some_eq, cmp_zero_r.
      change (0 =? 0) with true. rewrite Bool.andb_true_r. destruct (2147483648 <=? x); split; intros H; nia.
    + rewrite N', Fy. cbn [negb andb Numeric.fcmp]. rewrite some_eq, cmp_single by assumption.
      destruct (2147483648 <=? x) eqn:Sx, (2147483648 <=? y) eqn:Sy; split; intros H.
      all: try (destruct H as (-> & -> & [H|H])); try discriminate; try lia.
      all: assert (J : e = e') by (destruct (Z.lt_trichotomy e e') as [L|[L|L]]; lia); split; [exact J|]; split; [lia|]; (left; reflexivity) || (right; lia).
Qed.
Example C16_float_comparison_case : f_eq false 0 (2 ^ 31) = true /\ f_eq false 1 2 = false /\ f_eq true 1 2 = true /\
  f_eq true (2 ^ 23) (2 ^ 23 - 1) = false /\ f_eq false 0x7fc00000 0x7fc00000 = false /\ f_eq false 0x7f800000 0xff800000 = false.
Proof. vm_compute. repeat split. Qed.

(** two entries: tag 0x0101, then tag 0x0202 *)
Definition two_entries (x : Z) : Z :=
  if x =? 64 + 2 then 1 else if x =? 64 + 3 then 1 else if x =? 64 + 6 then 2 else if x =? 64 + 7 then 2 else 0.
(** With MXCSR.DAZ set (code linked with -ffast-math, or set by an audio or graphics library) every tag
    equals every other: AVX returns a foreign entry, SSE2 and AVX2 the right one. *)
Theorem C16_AVX_with_daz_refuted : exists m begin e tag,
  bytes_mem m /\ 0 <= tag < 65536 /\ (e - begin) mod 4 = 0 /\
  ~ first_entry m begin e tag (fst (scan_AVX true m begin e tag)) /\
  fst (scan_SSE2 m begin e tag) <> fst (scan_AVX true m begin e tag).
Proof.
  exists two_entries, 64, 72, 0x0202. split.
  { intros x. unfold two_entries. destruct (_ =? _); [lia|]. destruct (_ =? _); [lia|]. destruct (_ =? _); [lia|]. destruct (_ =? _); lia. }
  split; [lia|]. split; [reflexivity|]. split.
  - replace (fst (scan_AVX true two_entries 64 72 0x0202)) with (Some 64) by (vm_compute; reflexivity).
    intros (_ & _ & T & _). revert T. vm_compute. discriminate.
  - vm_compute. discriminate.
Qed.
(** a longer index: 300 entries with the tag at entries 77 and 201; all five scans meet entry 77, and the walk meets both *)
Definition long_index (x : Z) : Z := if (x =? 4096 + 77 * 4 + 3) || (x =? 4096 + 201 * 4 + 3) then 7 else 0.
Example C16_example :
  fst (scan_referential long_index 4096 (4096 + 1200) 0x700) = Some (4096 + 77 * 4) /\
  fst (scan_unroll long_index 4096 (4096 + 1200) 0x700) = Some (4096 + 77 * 4) /\
  fst (scan_SSE2 long_index 4096 (4096 + 1200) 0x700) = Some (4096 + 77 * 4) /\
  fst (scan_AVX2 long_index 4096 (4096 + 1200) 0x700) = Some (4096 + 77 * 4) /\
  fst (scan_AVX false long_index 4096 (4096 + 1200) 0x700) = Some (4096 + 77 * 4) /\
  walk scan_AVX2 301 long_index (fst (scan_AVX2 long_index 4096 (4096 + 1200) 0x700)) (4096 + 1200) 0x700
    = [4096 + 77 * 4; 4096 + 201 * 4].
Proof. vm_compute. repeat split. Qed.
(** short indexes of three entries at an address near the start of a page and in the middle of one *)
Example C16_example_short :
  fst (scan_SSE2 long_index (4096 + 300) (4096 + 312) 0x700) = Some (4096 + 308) /\
  fst (scan_AVX2 long_index (4096 + 300) (4096 + 312) 0x700) = Some (4096 + 308) /\
  fst (scan_AVX false long_index (4096 + 300) (4096 + 312) 0x700) = Some (4096 + 308) /\
  fst (scan_SSE2 two_entries 64 72 0x0202) = Some 68 /\ fst (scan_SSE2 two_entries 64 72 0x0303) = None /\
  fst (scan_AVX2 (fun x => two_entries (x - 4096)) 4160 4168 0x0202) = Some 4164.
Proof. vm_compute. repeat split. Qed.

(** ** C17. Index scan never touches an unmapped page *)
(** every byte read is in a 4 KiB page that holds a byte of [begin, e) *)
Definition in_pages (begin e : Z) (t : trace) : Prop :=
  Forall (fun r => forall x, fst r <= x < fst r + snd r -> exists y, begin <= y < e /\ x / 4096 = y / 4096) t.
Lemma within_in_pages : forall begin e t, within begin e t -> in_pages begin e t.
Proof.
  intros begin e t H. unfold in_pages. eapply Forall_impl; [|exact H]. intros [a l] [A B] x Hx. cbn [fst snd] in *.
  exists x. split; [lia|reflexivity].
Qed.
Theorem C17_portable_reads_index_only : forall m begin e tag, (e - begin) mod 4 = 0 ->
  within begin e (snd (scan_referential m begin e tag)) /\ within begin e (snd (scan_unroll m begin e tag)).
Proof.
  intros m begin e tag M. split.
  - apply referential_reads; [lia|assumption].
  - destruct (Z.lt_ge_cases e begin) as [L|G].
    + unfold scan_unroll. replace ((e - begin) / 4 <? 0) with true by lia. constructor.
    + replace e with (begin + 4 * Z.of_nat (Z.to_nat ((e - begin) / 4))) by lia. apply unroll_reads.
Qed.
Lemma int_pages : forall w lg m begin e tag, (w = 4 /\ lg = 4) \/ (w = 8 /\ lg = 5) -> (e - begin) mod 4 = 0 ->
  in_pages begin e (snd (scan_int w lg m begin e tag)).
Proof.
  intros w lg m begin e tag Hw M. unfold scan_int. destruct (e - begin <? 4 * w) eqn:E.
  - unfold short_int. destruct (e - begin <? 4) eqn:E4; [constructor|].
    assert (P : Z.land (page_test w) begin = (begin mod 4096) / (4 * w) * (4 * w)).
    { destruct Hw as [[-> _]|[-> _]]; [exact (page_land 4 begin ltac:(lia)) | exact (page_land 5 begin ltac:(lia))]. }
    rewrite P. destruct (negb (begin mod 4096 / (4 * w) * (4 * w) =? 0)) eqn:N; cbn [snd];
      (constructor; [|constructor]); intros x Hx; cbn [fst snd] in Hx.
    + destruct (Z.lt_ge_cases x begin) as [L|G]; [|exists x; split; [lia|reflexivity]].
      exists begin. split; [lia|]. assert (4 * w <= begin mod 4096).
      { destruct Hw as [[-> _]|[-> _]]; lia. }
      assert (begin / 4096 * 4096 = begin - begin mod 4096) by lia.
      symmetry. apply (Z.div_unique_pos _ _ _ (x - begin / 4096 * 4096)); lia.
    + exists begin. split; [lia|]. assert (begin mod 4096 < 4 * w).
      { destruct Hw as [[-> _]|[-> _]]; lia. }
      symmetry. apply (Z.div_unique_pos _ _ _ (x - begin / 4096 * 4096)); lia.
  - apply within_in_pages.
    assert (R : reads_step 0 (4 * w) (step_int w m tag)) by (intros a; cbn; rewrite Z.add_0_r; reflexivity).
    pose proof (wide_reads 0 (4 * w) 0 (Z.to_nat w) lg (step_int w m tag) ltac:(lia) ltac:(lia)) as Q. rewrite Z2Nat.id in Q by lia.
    specialize (Q ltac:(destruct Hw as [[-> ->]|[-> ->]]; reflexivity) R ltac:(lia) ltac:(lia) begin (Z.to_nat ((e - begin) / 4)) ltac:(lia)).
    replace (begin + 4 * Z.of_nat (Z.to_nat ((e - begin) / 4))) with e in Q by lia. rewrite !Z.add_0_r in Q. exact Q.
Qed.
Theorem C17_SSE2_reads_index_pages_only : forall m begin e tag, (e - begin) mod 4 = 0 ->
  in_pages begin e (snd (scan_SSE2 m begin e tag)).
Proof. intros. apply int_pages; [lia|assumption]. Qed.
Theorem C17_AVX2_reads_index_pages_only : forall m begin e tag, (e - begin) mod 4 = 0 ->
  in_pages begin e (snd (scan_AVX2 m begin e tag)).
Proof. intros. apply int_pages; [lia|assumption]. Qed.
(** AVX reads two bytes past the index, hence stays in the pages of the index extended by two bytes *)
Theorem C17_AVX_partial : forall m begin e tag, (e - begin) mod 4 = 0 ->
  in_pages begin (e + 2) (snd (scan_AVX false m begin e tag)).
Proof.
  intros m begin e tag M. unfold scan_AVX. destruct (e - begin <? 32) eqn:E.
  - unfold short_ps. destruct (e - begin <? 4) eqn:E4; [constructor|].
    pose proof (page_land 5 begin ltac:(lia)) as P. change (4096 - 2 ^ 5) with 0xfe0 in P. change (2 ^ 5) with 32 in P. rewrite P.
    destruct (negb (begin mod 4096 / 32 * 32 =? 0)) eqn:N; cbn [snd]; (constructor; [|constructor]); intros x Hx; cbn [fst snd] in Hx.
    + destruct (Z.lt_ge_cases x begin) as [L|G]; [|exists x; split; [lia|reflexivity]].
      exists begin. split; [lia|]. assert (32 <= begin mod 4096) by lia.
      symmetry. apply (Z.div_unique_pos _ _ _ (x - begin / 4096 * 4096)); lia.
    + exists begin. split; [lia|]. assert (begin mod 4096 < 32) by lia.
      symmetry. apply (Z.div_unique_pos _ _ _ (x - begin / 4096 * 4096)); lia.
  - assert (R : reads_step 2 32 (step_ps false m tag)) by (intros a; reflexivity).
    pose proof (wide_reads 2 32 2 8 5 _ ltac:(lia) ltac:(lia) eq_refl R ltac:(lia) ltac:(lia) begin (Z.to_nat ((e - begin) / 4)) ltac:(lia)) as Q.
    replace (begin + 4 * Z.of_nat (Z.to_nat ((e - begin) / 4))) with e in Q by lia. change (Z.of_nat 8) with 8 in Q.
    apply within_in_pages. eapply Forall_impl; [|exact Q]. intros [a l]. cbn [fst snd]. lia.
Qed.
(** an index that ends with its page: AVX reads the next page *)
Theorem C17_AVX_refuted : exists m begin e tag, bytes_mem m /\ (e - begin) mod 4 = 0 /\ begin mod 4 = 0 /\
  ~ in_pages begin e (snd (scan_AVX false m begin e tag)).
Proof.
  exists (fun _ => 0), (8192 - 8), 8192, 1. split; [intros x; lia|]. split; [reflexivity|]. split; [reflexivity|].
  replace (snd (scan_AVX false (fun _ => 0) (8192 - 8) 8192 1)) with [(8192 - 30, 32)] by (vm_compute; reflexivity).
  intros H. inversion H as [|r l H1 H2]; subst. destruct (H1 8192 ltac:(cbn; lia)) as (y & Hy & Q).
  change (8192 / 4096) with 2 in Q. lia.
Qed.
(** the same in the main loop *)
Theorem C17_AVX_main_loop_refuted : exists m begin e tag, bytes_mem m /\ (e - begin) mod 4 = 0 /\ 32 <= e - begin /\
  ~ in_pages begin e (snd (scan_AVX false m begin e tag)).
Proof.
  exists (fun _ => 0), (8192 - 40), 8192, 1. split; [intros x; lia|]. split; [reflexivity|]. split; [lia|].
  replace (snd (scan_AVX false (fun _ => 0) (8192 - 40) 8192 1)) with [(8192 - 38, 32); (8192 - 30, 32)] by (vm_compute; reflexivity).
  intros H. inversion H as [|r l H1 H2]; subst. inversion H2 as [|r2 l2 H3 H4]; subst. destruct (H3 8192 ltac:(cbn; lia)) as (y & Hy & Q).
  change (8192 / 4096) with 2 in Q. lia.
Qed.
(** the reads of SSE2 for a short index at the end of a page and at the start of one *)
Example C17_example :
  snd (scan_SSE2 (fun _ => 0) (8192 - 8) 8192 1) = [(8192 - 16, 16)] /\
  snd (scan_SSE2 (fun _ => 0) 8192 8200 1) = [(8192, 16)] /\
  snd (scan_AVX2 (fun _ => 0) (8192 - 40) 8192 1) = [(8192 - 40, 32); (8192 - 32, 32)] /\
  length (snd (scan_SSE2 (fun _ => 0) 0 10004 1)) = 626%nat.
Proof. vm_compute. repeat split. Qed.

Print Assumptions C16_referential.
Print Assumptions C16_two_cpus_agree.
Print Assumptions C16_walk_meets_every_entry.
Print Assumptions C16_AVX_with_daz_refuted.
Print Assumptions C17_portable_reads_index_only.
Print Assumptions C17_SSE2_reads_index_pages_only.
Print Assumptions C17_AVX2_reads_index_pages_only.
Print Assumptions C17_AVX_partial.
Print Assumptions C17_AVX_refuted.
Print Assumptions C17_AVX_main_loop_refuted.
Print Assumptions C16_float_comparison.

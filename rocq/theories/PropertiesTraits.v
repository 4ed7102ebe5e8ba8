(** * Properties of the tables of types: C75, C76 *)
From Verif Require Import Base Tag TagProofs Traits.
From Coq Require Import ZifyBool ZifyNat Znumtheory.
Ltac Zify.zify_post_hook ::= Z.div_mod_to_equations.

(** ** C75: what the values of a numeric type are *)
(** The number m * 2^e equals the number n * 2^f. *)
Definition same_number (m e n f : Z) : Prop := m * 2 ^ (e - Z.min e f) = n * 2 ^ (f - Z.min e f).
(** whole numbers within limits; IEEE numbers with [p] bits and exponents of the last bit within limits *)
Inductive kind := Whole (lo hi : Z) | Binary (p lo hi : Z).
Definition among (k : kind) (m e : Z) : Prop :=
  match k with
  | Whole lo hi => exists n, lo <= n <= hi /\ same_number m e n 0
  | Binary p lo hi => exists n q, Z.abs n < 2 ^ p /\ lo <= q <= hi /\ same_number m e n q
  end.
(** the numeric types, by their definition in C++ and IEEE 754 *)
Definition numeric : list (Z * kind) :=
  [(g_i8, Whole (-128) 127); (g_u8, Whole 0 255); (g_i16, Whole (-32768) 32767); (g_u16, Whole 0 65535);
   (g_i32, Whole (- 2 ^ 31) (2 ^ 31 - 1)); (g_u32, Whole 0 (2 ^ 32 - 1)); (g_f32, Binary 24 (-149) 104);
   (g_i64, Whole (- 2 ^ 63) (2 ^ 63 - 1)); (g_u64, Whole 0 (2 ^ 64 - 1)); (g_f64, Binary 53 (-1074) 971)].
(** every value of [a] is a value of [b] *)
Definition within (a b : kind) : Prop := forall m e, among a m e -> among b m e.

Definition inclb (a b : kind) : bool :=
  match a, b with
  | Whole l h, Whole l' h' => (l' <=? l) && (h <=? h')
  | Whole l h, Binary p lo hi => (- 2 ^ p <? l) && (h <? 2 ^ p) && (lo <=? 0) && (0 <=? hi)
  | Binary p l h, Binary p' l' h' => (0 <=? p) && (p <=? p') && (l' <=? l) && (h <=? h')
  | Binary _ _ _, Whole _ _ => false
  end.
Definition exclb (a b : kind) : bool :=
  match a, b with
  | Whole l h, Whole l' h' => (l <=? h) && ((l <? l') || (h' <? h))
  | Whole l h, Binary p lo hi => (l <=? 0) && (2 ^ p + 1 <=? h) && (0 <? p)
  | Binary p l h, Binary p' l' h' => (0 <? p) && (l <? l') && (l <=? h)
  | Binary p l h, Whole _ _ => (0 <? p) && (l <=? -1) && (-1 <=? h)
  end.
Lemma same_whole n k : same_number n 0 k 0 <-> n = k.
Proof. unfold same_number. cbn. lia. Qed.
Lemma same_refl m e : same_number m e m e.
Proof. unfold same_number. reflexivity. Qed.
Lemma inclb_ok a b : inclb a b = true -> within a b.
Proof.
  destruct a as [l h|p l h], b as [l' h'|p' l' h']; cbn [inclb]; intros E m e; cbn [among]; [| |discriminate|].
  - intros (n & B & SN). exists n. split; [lia|exact SN].
  - intros (n & B & SN). exists n, 0. split; [lia|]. split; [lia|exact SN].
  - intros (n & q & A & B & SN). exists n, q. split; [|split; [lia|exact SN]].
    pose proof (Z.pow_le_mono_r 2 p p' ltac:(lia) ltac:(lia)). lia.
Qed.
Lemma even_pow k j : 0 < j -> exists c, k * 2 ^ j = 2 * c.
Proof.
  intros H. exists (k * 2 ^ (j - 1)). replace j with (Z.succ (j - 1)) at 1 by lia. rewrite Z.pow_succ_r by lia. ring.
Qed.
Lemma exclb_ok a b : exclb a b = true -> ~ within a b.
Proof.
  destruct a as [l h|p l h], b as [l' h'|p' l' h']; cbn [exclb]; intros E W.
  - apply andb_prop in E. destruct E as [E1 E].
    assert (G : forall n, l <= n <= h -> l' <= n <= h').
    { intros n B. destruct (W n 0) as (k & Hk & SN); [exists n; split; [lia|apply same_refl]|]. apply (proj1 (same_whole _ _)) in SN. lia. }
    pose proof (G l ltac:(lia)). pose proof (G h ltac:(lia)). apply Bool.orb_prop in E. lia.
  - assert (P : 0 < 2 ^ p') by (apply Z.pow_pos_nonneg; lia).
    destruct (W (2 ^ p' + 1) 0) as (k & q & A & B & SN); [exists (2 ^ p' + 1); split; [lia|apply same_refl]|].
    unfold same_number in SN. destruct (Z.le_gt_cases q 0) as [Q|Q].
    + rewrite Z.min_r in SN by lia. replace (q - q) with 0 in SN by lia. rewrite Z.pow_0_r, Z.mul_1_r in SN.
      assert (0 < 2 ^ (0 - q)) by (apply Z.pow_pos_nonneg; lia). nia.
    + rewrite Z.min_l in SN by lia. change (0 - 0) with 0 in SN. rewrite Z.pow_0_r, Z.mul_1_r, Z.sub_0_r in SN.
      destruct (even_pow k q Q) as [c Hc]. rewrite Hc in SN. destruct (even_pow 1 p' ltac:(lia)) as [d Hd]. lia.
  - assert (P : 1 < 2 ^ p) by (apply Z.pow_gt_1; lia).
    destruct (W 1 (-1)) as (k & _ & SN); [exists 1, (-1); split; [lia|split; [lia|apply same_refl]]|].
    unfold same_number in SN. cbn in SN. lia.
  - assert (P : 1 < 2 ^ p) by (apply Z.pow_gt_1; lia).
    destruct (W 1 l) as (k & q & _ & B & SN); [exists 1, l; split; [lia|split; [lia|apply same_refl]]|].
    unfold same_number in SN. rewrite Z.min_l in SN by lia. replace (l - l) with 0 in SN by lia. rewrite Z.pow_0_r, Z.mul_1_r in SN.
    destruct (even_pow k (q - l) ltac:(lia)) as [c Hc]. lia.
Qed.

Definition unsigned_type (g : Z) : bool := (g =? g_u8) || (g =? g_u16) || (g =? g_u32) || (g =? g_u64).
Lemma table_checked : forallb (fun a => forallb (fun b =>
  if fst a =? g_u8 then true
  else if (fst a =? g_i8) && unsigned_type (fst b) then true
  else if convertible_dynamic (fst a) (fst b) then inclb (snd a) (snd b) else exclb (snd a) (snd b)) numeric) numeric = true.
Proof. vm_compute. reflexivity. Qed.
Lemma table_pair a b : In a numeric -> In b numeric -> fst a <> g_u8 -> ~ (fst a = g_i8 /\ unsigned_type (fst b) = true) ->
  if convertible_dynamic (fst a) (fst b) then inclb (snd a) (snd b) = true else exclb (snd a) (snd b) = true.
Proof.
  intros A B N M. pose proof table_checked as C. rewrite forallb_forall in C. specialize (C a A). rewrite forallb_forall in C.
  specialize (C b B). cbv beta in C. replace (fst a =? g_u8) with false in C by lia.
  destruct ((fst a =? g_i8) && unsigned_type (fst b)) eqn:E; [exfalso; apply M; apply andb_prop in E; destruct E; split; [lia|assumption]|].
  destruct (convertible_dynamic (fst a) (fst b)); exact C.
Qed.

(** Apart from the conversions of the next two theorems: a numeric type is called convertible to another
    one exactly when every value of the first is a value of the second. *)
Theorem C75_convertible_iff_within_partial : forall a b, In a numeric -> In b numeric ->
  fst a <> g_u8 -> ~ (fst a = g_i8 /\ unsigned_type (fst b) = true) ->
  (convertible_dynamic (fst a) (fst b) = true <-> within (snd a) (snd b)).
Proof.
  intros a b A B N M. pose proof (table_pair a b A B N M) as T. split.
  - intros C. rewrite C in T. apply inclb_ok. exact T.
  - intros W. destruct (convertible_dynamic (fst a) (fst b)); [reflexivity|]. elim (exclb_ok _ _ T W).
Qed.
Example C75_cases :
  convertible_dynamic g_i32 g_f64 = true /\ convertible_dynamic g_i32 g_f32 = false /\
  convertible_dynamic g_i16 g_f32 = true /\ convertible_dynamic g_u16 g_i32 = true /\
  convertible_dynamic g_u32 g_i32 = false /\ convertible_dynamic g_f32 g_f64 = true /\
  convertible_dynamic g_i64 g_f64 = false.
Proof. vm_compute. repeat split. Qed.
(** Signed bytes are called convertible to every unsigned type (meta.h:298-299, used by 315, 336, 377) … *)
Theorem C75_signed_to_unsigned_refuted : forall b, In b numeric -> unsigned_type (fst b) = true ->
  convertible_dynamic g_i8 (fst b) = true /\ among (Whole (-128) 127) (-1) 0 /\ ~ among (snd b) (-1) 0.
Proof.
  intros b B U. assert (C : convertible_dynamic g_i8 (fst b) = true /\ match snd b with Whole lo _ => 0 <=? lo | _ => false end = true).
  { assert (T : forallb (fun b => negb (unsigned_type (fst b)) || (convertible_dynamic g_i8 (fst b) &&
        match snd b with Whole lo _ => 0 <=? lo | _ => false end)) numeric = true) by (vm_compute; reflexivity).
    rewrite forallb_forall in T. specialize (T b B). cbv beta in T. rewrite U in T. apply andb_prop in T. exact T. }
  destruct C as [C1 C2]. split; [exact C1|]. split; [exists (-1); split; [lia|apply same_refl]|].
  destruct (snd b) as [lo hi|]; [|discriminate]. intros (n & Hn & SN). apply (proj1 (same_whole _ _)) in SN. lia.
Qed.
(** … and unsigned bytes to no type at all, not even to themselves. *)
Theorem C75_bytes_refuted : forall b, 0 <= b <= 31 -> convertible_dynamic g_u8 b = false.
Proof.
  intros b B. assert (T : forallb (fun k => negb (convertible_dynamic g_u8 (Z.of_nat k))) (seq 0 32) = true) by (vm_compute; reflexivity).
  rewrite forallb_forall in T. specialize (T (Z.to_nat b) ltac:(apply in_seq; lia)). rewrite Z2Nat.id in T by lia.
  apply Bool.negb_true_iff. exact T.
Qed.
Example C75_bytes_within : within (Whole 0 255) (Whole 0 255) /\ within (Whole 0 255) (Whole (-32768) 32767).
Proof. split; apply inclb_ok; vm_compute; reflexivity. Qed.
(** Times in units of 2^-32 seconds: whole seconds for the short type.  The long type is called
    convertible to the short one, which loses the fraction (meta.h:352-355). *)
Definition time_among (g x : Z) : Prop :=
  (g = g_t32 /\ exists n, 0 <= n < 2 ^ 32 /\ x = n * 2 ^ 32) \/ (g = g_t64 /\ 0 <= x < 2 ^ 64).
Theorem C75_time_widens : forall x, time_among g_t32 x -> convertible_dynamic g_t32 g_t64 = true /\ time_among g_t64 x.
Proof.
  intros x [(_ & n & B & ->)|[E _]]; [|discriminate]. split; [vm_compute; reflexivity|]. right. split; [reflexivity|].
  change (2 ^ 32) with 4294967296 in *. change (2 ^ 64) with (4294967296 * 4294967296). nia.
Qed.
Theorem C75_time_narrows_refuted : exists x,
  convertible_dynamic g_t64 g_t32 = true /\ time_among g_t64 x /\ ~ time_among g_t32 x.
Proof.
  exists 1. split; [vm_compute; reflexivity|]. split; [right; split; [reflexivity|vm_compute; split; congruence]|].
  intros [(_ & n & B & E)|[E _]]; [|discriminate]. change (2 ^ 32) with 4294967296 in *. lia.
Qed.
(** All other types convert from themselves only, networks also from addresses. *)
Theorem C75_other_types : forall from to, 0 <= from <= 31 -> 0 <= to <= 31 ->
  ~ (g_i8 <= to <= g_f64) -> to <> g_t64 -> to <> g_ipnet ->
  (convertible_dynamic from to = true <-> from = to).
Proof.
  intros from to F T N1 N2 N3.
  assert (C : forallb (fun a => forallb (fun b => ((4 <=? Z.of_nat b) && (Z.of_nat b <=? 14)) || (Z.of_nat b =? 16) || (Z.of_nat b =? 30) ||
     Bool.eqb (convertible_dynamic (Z.of_nat a) (Z.of_nat b)) (Nat.eqb a b)) (seq 0 32)) (seq 0 32) = true) by (vm_compute; reflexivity).
  rewrite forallb_forall in C. specialize (C (Z.to_nat from) ltac:(apply in_seq; lia)). rewrite forallb_forall in C.
  specialize (C (Z.to_nat to) ltac:(apply in_seq; lia)). cbv beta in C. rewrite !Z2Nat.id in C by lia.
  unfold g_i8, g_f64, g_t64, g_ipnet in *.
  replace ((4 <=? to) && (to <=? 14) || (to =? 16) || (to =? 30)) with false in C by lia. cbn [orb] in C.
  apply Bool.eqb_prop in C. rewrite C. split; intros H; lia.
Qed.
Theorem C75_networks : forall from, 0 <= from <= 31 ->
  (convertible_dynamic from g_ipnet = true <-> from = g_ip \/ from = g_ipnet).
Proof.
  intros from F.
  assert (C : forallb (fun a => Bool.eqb (convertible_dynamic (Z.of_nat a) g_ipnet) (Nat.eqb a 29 || Nat.eqb a 30)) (seq 0 32) = true) by (vm_compute; reflexivity).
  rewrite forallb_forall in C. specialize (C (Z.to_nat from) ltac:(apply in_seq; lia)). cbv beta in C. rewrite Z2Nat.id in C by lia.
  apply Bool.eqb_prop in C. rewrite C. unfold g_ip, g_ipnet. split; intros H; lia.
Qed.
(** The table of the library and the one for constant expressions agree. *)
Theorem C75_tables_agree : forall from to, 0 <= from <= 31 -> 0 <= to <= 31 ->
  convertible_dynamic from to = convertible_constexpr from to.
Proof.
  intros from to F T.
  assert (C : forallb (fun a => forallb (fun b => Bool.eqb (convertible_dynamic (Z.of_nat a) (Z.of_nat b))
     (convertible_constexpr (Z.of_nat a) (Z.of_nat b))) (seq 0 32)) (seq 0 32) = true) by (vm_compute; reflexivity).
  rewrite forallb_forall in C. specialize (C (Z.to_nat from) ltac:(apply in_seq; lia)). rewrite forallb_forall in C.
  specialize (C (Z.to_nat to) ltac:(apply in_seq; lia)). cbv beta in C. rewrite !Z2Nat.id in C by lia.
  apply Bool.eqb_prop. exact C.
Qed.

(** ** C76: copying values of fixed size *)
Definition fixed_type (g : Z) : Prop := g_i8 <= g <= g_ipnet.
Lemma sizes_checked : forallb (fun k => let g := Z.of_nat k in
  (g =? g_ipnet) || ((0 <? value_size g) && (value_size g =? preplaced_bytes g))) (seq 4 27) = true.
Proof. vm_compute. reflexivity. Qed.
Lemma sizes g : fixed_type g -> g <> g_ipnet -> 0 < value_size g /\ value_size g = preplaced_bytes g.
Proof.
  intros F N. pose proof sizes_checked as C. rewrite forallb_forall in C.
  unfold fixed_type, g_i8, g_ipnet in *. specialize (C (Z.to_nat g) ltac:(apply in_seq; lia)). cbv beta zeta in C.
  rewrite Z2Nat.id in C by lia. unfold g_ipnet in C. lia.
Qed.
Lemma copy_read g m dst src m' : copy_bytes m dst src (value_size g) = Some m' ->
  Z.of_nat (length src) = value_size g -> read_value g m' dst = src.
Proof.
  unfold copy_bytes. destruct (value_size g <=? _); [|discriminate]. intros [= <-] L. unfold read_value.
  apply nth_ext with (d := 0) (d' := 0); [rewrite map_length, seq_length; lia|]. intros n Hn.
  rewrite map_length, seq_length in Hn.
  rewrite nth_indep with (d' := (fun i => if (dst <=? dst + Z.of_nat i) && (dst + Z.of_nat i <? dst + value_size g) then nth (Z.to_nat (dst + Z.of_nat i - dst)) src 0 else m (dst + Z.of_nat i)) 0%nat)
    by (rewrite map_length, seq_length; exact Hn).
  rewrite map_nth with (f := fun i => if (dst <=? dst + Z.of_nat i) && (dst + Z.of_nat i <? dst + value_size g) then nth (Z.to_nat (dst + Z.of_nat i - dst)) src 0 else m (dst + Z.of_nat i)).
  rewrite seq_nth by exact Hn. cbn [Nat.add].
  replace ((dst <=? dst + Z.of_nat n) && (dst + Z.of_nat n <? dst + value_size g)) with true by lia.
  f_equal. lia.
Qed.
(** Every type but networks: the object is read and nothing behind it, it reads back, and no byte
    outside the field changes. *)
Theorem C76_copied_exactly_partial : forall g m dst src, fixed_type g -> g <> g_ipnet ->
  Z.of_nat (length src) = value_size g ->
  exists m', write_value g m dst src = Some m' /\ read_value g m' dst = src /\
    forall x, ~ (dst <= x < dst + preplaced_bytes g) -> m' x = m x.
Proof.
  intros g m dst src F N L. destruct (sizes g F N) as [P E].
  assert (W : write_value g m dst src = copy_bytes m dst src (value_size g)).
  { unfold write_value. rewrite <- E, Z.eqb_refl. destruct (by_memcpy g); [|reflexivity]. destruct (copy_bytes _ _ _ _); reflexivity. }
  rewrite W. pose proof (copy_read g m dst src) as R. unfold copy_bytes in *.
  replace (value_size g <=? Z.of_nat (length src)) with true in * by lia. eexists. split; [reflexivity|].
  split; [apply R; [reflexivity|exact L]|]. intros x Hx. cbv beta. rewrite <- E in Hx.
  destruct ((dst <=? x) && (x <? dst + value_size g)) eqn:Ex; [lia|reflexivity].
Qed.
Example C76_case : fixed_type g_bin96 /\ value_size g_bin96 = 12 /\ fixed_type g_ip /\ value_size g_ip = 16.
Proof. vm_compute. repeat split; congruence. Qed.
(** A network has 17 bytes, but 20 are read: three bytes behind the object (meta.h:241-244, 265). *)
Theorem C76_networks_refuted : forall m dst src, Z.of_nat (length src) = value_size g_ipnet ->
  write_value g_ipnet m dst src = None.
Proof.
  intros m dst src L. change (value_size g_ipnet) with 17 in L. unfold write_value, copy_bytes.
  change (by_memcpy g_ipnet) with true. change (preplaced_bytes g_ipnet) with 20. cbv iota.
  replace (20 <=? Z.of_nat (length src)) with false by lia. reflexivity.
Qed.
(** When these bytes can be read, they do not get into the tuple: the padding is zero. *)
Theorem C76_networks_padded : forall m dst src junk, Z.of_nat (length src) = value_size g_ipnet -> length junk = 3%nat ->
  exists m', write_value g_ipnet m dst (src ++ junk) = Some m' /\ read_value g_ipnet m' dst = src /\
    (forall x, dst + 17 <= x < dst + 20 -> m' x = 0) /\
    (forall x, ~ (dst <= x < dst + 20) -> m' x = m x).
Proof.
  intros m dst src junk L J. change (value_size g_ipnet) with 17 in L. unfold write_value, copy_bytes.
  change (by_memcpy g_ipnet) with true. change (preplaced_bytes g_ipnet) with 20. change (value_size g_ipnet) with 17.
  rewrite app_length. cbv iota. replace (20 <=? Z.of_nat (length src + length junk)) with true by lia.
  change (20 =? 17) with false. cbv iota. eexists. split; [reflexivity|]. split; [|split].
  - unfold read_value. change (Z.to_nat (value_size g_ipnet)) with 17%nat.
    apply nth_ext with (d := 0) (d' := 0); [rewrite map_length, seq_length; lia|]. intros n Hn.
    rewrite map_length, seq_length in Hn. unfold fill_zero.
    match goal with |- nth n (map ?f _) 0 = _ =>
      rewrite nth_indep with (d' := f 0%nat) by (rewrite map_length, seq_length; exact Hn); rewrite (map_nth f) end.
    rewrite seq_nth by exact Hn. cbn [Nat.add].
    replace ((dst + 17 <=? dst + Z.of_nat n) && (dst + Z.of_nat n <? dst + 17 + (20 - 17))) with false by lia.
    replace ((dst <=? dst + Z.of_nat n) && (dst + Z.of_nat n <? dst + 20)) with true by lia.
    rewrite app_nth1 by lia. f_equal. lia.
  - intros x Hx. unfold fill_zero. replace ((dst + 17 <=? x) && (x <? dst + 17 + (20 - 17))) with true by lia. reflexivity.
  - intros x Hx. unfold fill_zero. destruct ((dst + 17 <=? x) && (x <? dst + 17 + (20 - 17))) eqn:E1; [lia|].
    destruct ((dst <=? x) && (x <? dst + 20)) eqn:E2; [lia|reflexivity].
Qed.

Print Assumptions C75_convertible_iff_within_partial.
Print Assumptions C75_signed_to_unsigned_refuted.
Print Assumptions C75_bytes_refuted.
Print Assumptions C75_time_widens.
Print Assumptions C75_time_narrows_refuted.
Print Assumptions C75_other_types.
Print Assumptions C75_networks.
Print Assumptions C75_tables_agree.
Print Assumptions C76_copied_exactly_partial.
Print Assumptions C76_networks_refuted.
Print Assumptions C76_networks_padded.

(** ** C68: the names of the types tell the kind and the size *)
Require Verif.Text.
Require Import Coq.Strings.String.
Definition letters (g : Z) : list Z :=
  Text.codes (if (g =? g_i8) || (g =? g_i16) || (g =? g_i32) || (g =? g_i64) then "i"%string
    else if (g =? g_u8) || (g =? g_u16) || (g =? g_u32) || (g =? g_u64) then "u"%string
    else if (g =? g_f32) || (g =? g_f64) then "f"%string else if g =? g_d64 then "d"%string else if (g =? g_t32) || (g =? g_t64) then "t"%string
    else if (g =? g_app64) || (g =? g_app128) then "app_reserved_"%string else "bin"%string).
Theorem C68_names_tell_size : forall g, 4 <= g <= 27 -> Text.genus_name g = (letters g ++ Text.print_i (8 * value_size g))%list.
Proof.
  assert (E : forallb (fun k => if list_eq_dec Z.eq_dec (Text.genus_name (Z.of_nat k)) (letters (Z.of_nat k) ++ Text.print_i (8 * value_size (Z.of_nat k)))%list then true else false) (seq 4 24) = true) by (vm_compute; reflexivity).
  intros g Hg. rewrite forallb_forall in E. specialize (E (Z.to_nat g) ltac:(apply in_seq; lia)). cbv beta in E. rewrite Z2Nat.id in E by lia.
  destruct (list_eq_dec Z.eq_dec _ _) as [H|H]; [exact H|discriminate].
Qed.
Example C68_names_case : Text.genus_name g_bin160 = Text.codes "bin160" /\ Text.genus_name g_u16 = Text.codes "u16" /\ Text.genus_name g_mac = Text.codes "mac".
Proof. vm_compute. auto. Qed.

Print Assumptions C68_names_tell_size.

(** The mix of a guard's first word tells any two values that differ in one byte apart. *)
From Coq Require Import ZArith List Lia Bool.
From Verif Require Import Base Hippeus.
Import ListNotations.
Local Open Scope Z_scope.
Ltac Zify.zify_post_hook ::= Z.div_mod_to_equations.

Definition prime : Z := 0xD0C3DFD7.
Definition low (x : Z) : Z := (prime * x) mod 2 ^ 32.
Definition high (x : Z) : Z := (prime * x) / 2 ^ 32.
Definition mixed (x : Z) : Z := Z.lxor (low x) (high x).

Lemma prod_range x : 0 <= x < 2 ^ 32 -> 0 <= prime * x < 2 ^ 64.
Proof. intros H. change (2 ^ 32) with 4294967296 in H. change (2 ^ 64) with 18446744073709551616. unfold prime. lia. Qed.
Lemma high_range x : 0 <= x < 2 ^ 32 -> 0 <= high x < prime.
Proof.
  intros H. unfold high. change (2 ^ 32) with 4294967296 in *. unfold prime in *. lia.
Qed.
Lemma low_range x : 0 <= low x < 2 ^ 32.
Proof. unfold low. change (2 ^ 32) with 4294967296. lia. Qed.

Lemma mixup_mixed chirp sig : mixup chirp sig = mixed (u32 (chirp + sig)).
Proof.
  unfold mixup. set (x := u32 (chirp + sig)). cbv zeta. fold prime.
  assert (X : 0 <= x < 2 ^ 32) by (unfold x, u32; apply Z.mod_pos_bound; reflexivity).
  pose proof (prod_range x X) as P. unfold u64. rewrite Z.mod_small by exact P.
  unfold mixed, low, high, u32. apply Z.bits_inj'. intros n N.
  rewrite Z.lxor_spec. destruct (Z.lt_ge_cases n 32) as [L|G].
  - rewrite !Z.mod_pow2_bits_low by lia. rewrite Z.lxor_spec, Z.shiftr_spec by lia. rewrite <- Z.shiftr_div_pow2 by lia.
    rewrite Z.shiftr_spec by lia. reflexivity.
  - rewrite !Z.mod_pow2_bits_high by lia. rewrite <- Z.shiftr_div_pow2, Z.shiftr_spec by lia.
    rewrite Bool.xorb_false_l. symmetry. apply Z.bits_above_log2; [lia|]. destruct (Z.eq_dec (prime * x) 0) as [E|E]; [rewrite E; cbn; lia|].
    apply Z.log2_lt_pow2; [lia|]. eapply Z.lt_le_trans; [apply P|]. apply Z.pow_le_mono_r; lia.
Qed.

(** ** Equal mixes *)
Lemma lxor_swap a b c d : Z.lxor a b = Z.lxor c d -> Z.lxor a c = Z.lxor b d.
Proof.
  intros H. apply Z.bits_inj'. intros n N. apply (f_equal (fun z => Z.testbit z n)) in H.
  rewrite !Z.lxor_spec in *. destruct (Z.testbit a n), (Z.testbit b n), (Z.testbit c n), (Z.testbit d n); cbn in *; congruence.
Qed.
Lemma lxor_mod a b n : 0 <= n -> (Z.lxor a b mod 2 ^ n = 0 <-> (b - a) mod 2 ^ n = 0).
Proof.
  intros N.
  assert (E : Z.lxor a b mod 2 ^ n = Z.lxor (a mod 2 ^ n) (b mod 2 ^ n)).
  { apply Z.bits_inj'. intros k K. rewrite Z.lxor_spec. destruct (Z.lt_ge_cases k n).
    - rewrite !Z.mod_pow2_bits_low by lia. apply Z.lxor_spec.
    - rewrite !Z.mod_pow2_bits_high by lia. reflexivity. }
  rewrite E. assert (P : 2 ^ n <> 0) by (apply Z.pow_nonzero; lia). split; intros H.
  - apply Z.lxor_eq in H. rewrite Zminus_mod, H, Z.sub_diag. apply Z.mod_0_l. exact P.
  - assert (Q : a mod 2 ^ n = b mod 2 ^ n).
    { replace b with (a + (b - a)) by ring. rewrite Zplus_mod, H, Z.add_0_r, Z.mod_mod by exact P. reflexivity. }
    rewrite Q. apply Z.lxor_nilpotent.
Qed.
Lemma same_mix x y n : 0 <= n -> mixed x = mixed y ->
  ((low y - low x) mod 2 ^ n = 0 <-> (high y - high x) mod 2 ^ n = 0).
Proof.
  intros N H. unfold mixed in H. apply lxor_swap in H. rewrite <- !lxor_mod by exact N. rewrite H. reflexivity.
Qed.
(** the difference is at most the exclusive or *)
Lemma lxor_near a b g : 0 <= g -> a / 2 ^ g = b / 2 ^ g -> 0 <= Z.lxor a b < 2 ^ g.
Proof.
  intros G H. assert (P : 0 < 2 ^ g) by (apply Z.pow_pos_nonneg; lia).
  assert (S : Z.lxor a b / 2 ^ g = 0).
  { rewrite <- Z.shiftr_div_pow2 by exact G. rewrite <- !Z.shiftr_div_pow2 in H by exact G.
    rewrite Z.shiftr_lxor, H. apply Z.lxor_nilpotent. }
  apply Z.div_small_iff in S; lia.
Qed.
Lemma near_lxor a b g : 0 <= g -> 0 <= Z.lxor a b < 2 ^ g -> - 2 ^ g < b - a < 2 ^ g.
Proof.
  intros G H. assert (P : 0 < 2 ^ g) by (apply Z.pow_pos_nonneg; lia).
  assert (S : a / 2 ^ g = b / 2 ^ g).
  { assert (S : Z.lxor a b / 2 ^ g = 0) by (apply Z.div_small; exact H).
    rewrite <- Z.shiftr_div_pow2 in S by exact G. rewrite Z.shiftr_lxor in S. apply Z.lxor_eq in S.
    rewrite <- !Z.shiftr_div_pow2 by exact G. exact S. }
  pose proof (Z.mod_pos_bound a (2 ^ g) P). pose proof (Z.mod_pos_bound b (2 ^ g) P).
  pose proof (Z.div_mod a (2 ^ g) ltac:(lia)). pose proof (Z.div_mod b (2 ^ g) ltac:(lia)). rewrite S in *. lia.
Qed.

(** ** What an addend does to the halves *)
Definition part (d : Z) : Z := (prime * d) mod 2 ^ 32.
Definition more (d : Z) : Z := (prime * d) / 2 ^ 32.
Lemma halves x d : exists c, (c = 0 \/ c = 1) /\ low (x + d) = low x + part d - c * 2 ^ 32 /\ high (x + d) = high x + more d + c.
Proof.
  unfold low, high, part, more. change (2 ^ 32) with 4294967296. rewrite Z.mul_add_distr_l.
  set (p := prime * x). set (q := prime * d). exists ((p mod 4294967296 + q mod 4294967296) / 4294967296). lia.
Qed.
Lemma halves_wrap x : low (x - 2 ^ 32) = low x /\ high (x - 2 ^ 32) = high x - prime.
Proof.
  unfold low, high, prime. change (2 ^ 32) with 4294967296. lia.
Qed.
(** the same number of zero bits at the end *)
Fixpoint same_twos (n : nat) (a b : Z) : bool :=
  match n with
  | O => true
  | S n => if Z.odd a then Z.odd b else negb (Z.odd b) && same_twos n (Z.div2 a) (Z.div2 b)
  end.
Lemma odd_mod a : Z.odd a = false <-> a mod 2 ^ 1 = 0.
Proof. change (2 ^ 1) with 2. rewrite Zmod_odd. destruct (Z.odd a); split; intros; congruence || lia. Qed.
Lemma div2_mod a n : Z.odd a = false -> 0 <= n -> (a mod 2 ^ (n + 1) = 0 <-> Z.div2 a mod 2 ^ n = 0).
Proof.
  intros O N. assert (E : a = 2 * Z.div2 a) by (rewrite (Z.div2_odd a) at 1; rewrite O; cbn; lia).
  rewrite E at 1. rewrite Z.pow_add_r by lia. change (2 ^ 1) with 2. rewrite (Z.mul_comm (2 ^ n) 2).
  assert (P : 2 ^ n <> 0) by (apply Z.pow_nonzero; lia). rewrite Z.mul_mod_distr_l by lia. lia.
Qed.
Lemma same_twos_ok n : forall a b, (forall k, 0 <= k <= Z.of_nat n -> a mod 2 ^ k = 0 <-> b mod 2 ^ k = 0) -> same_twos n a b = true.
Proof.
  induction n as [|n IH]; intros a b H; [reflexivity|]. cbn [same_twos].
  pose proof (H 1 ltac:(lia)) as H1. rewrite <- !odd_mod in H1. destruct (Z.odd a) eqn:OA.
  - destruct (Z.odd b); [reflexivity|]. destruct H1 as [_ H1]. discriminate (H1 eq_refl).
  - destruct H1 as [H1 _]. specialize (H1 eq_refl). rewrite H1. apply IH. intros k K.
    rewrite <- !div2_mod by (assumption || lia). apply H. lia.
Qed.
(** [c] the carry, [w] whether the sum wrapped *)
Definition agree (d c w : Z) : bool := same_twos 32 (part d) (more d + c - w * prime).
Lemma mod_wrap a c k n : 0 <= n <= k -> (a - c * 2 ^ k) mod 2 ^ n = a mod 2 ^ n.
Proof.
  intros H. assert (E : 2 ^ k = 2 ^ (k - n) * 2 ^ n) by (rewrite <- Z.pow_add_r by lia; f_equal; lia).
  rewrite E. replace (a - c * (2 ^ (k - n) * 2 ^ n)) with (a + (- c * 2 ^ (k - n)) * 2 ^ n) by ring.
  apply Z_mod_plus_full.
Qed.
Lemma agree_of x d w : (w = 0 \/ w = 1) -> mixed x = mixed (x + d - w * 2 ^ 32) ->
  exists c, (c = 0 \/ c = 1) /\ agree d c w = true /\
    low (x + d) = low x + part d - c * 2 ^ 32 /\ high (x + d) = high x + more d + c.
Proof.
  intros W H. destruct (halves x d) as (c & C & L & U). exists c. split; [exact C|]. split; [|split; assumption].
  assert (LU : low (x + d - w * 2 ^ 32) = low (x + d) /\ high (x + d - w * 2 ^ 32) = high (x + d) - w * prime).
  { destruct W as [-> | ->]; [rewrite !Z.mul_0_l, !Z.sub_0_r; split; reflexivity|].
    rewrite !Z.mul_1_l. apply halves_wrap. }
  destruct LU as [L2 U2]. unfold agree. apply same_twos_ok. intros n N. change (Z.of_nat 32) with 32 in N.
  pose proof (same_mix x _ n ltac:(lia) H) as S.
  rewrite L2, L, U2, U in S.
  replace (low x + part d - c * 2 ^ 32 - low x) with (part d - c * 2 ^ 32) in S by ring.
  rewrite mod_wrap in S by lia.
  replace (high x + more d + c - w * prime - high x) with (more d + c - w * prime) in S by ring. exact S.
Qed.

Lemma forall_seq (p : Z -> bool) a n k : forallb (fun i => p (Z.of_nat i)) (seq a n) = true ->
  Z.of_nat a <= k < Z.of_nat a + Z.of_nat n -> p k = true.
Proof.
  intros H K. rewrite forallb_forall in H. specialize (H (Z.to_nat k)). rewrite Z2Nat.id in H by lia. apply H. apply in_seq. lia.
Qed.

(** ** The upper three bytes *)
Definition apart (d : Z) : bool :=
  let p := part d in let m := more d in
  negb (same_twos 32 p m || same_twos 32 p (m + 1) || same_twos 32 p (m - prime) || same_twos 32 p (m + 1 - prime)).
Definition upper (j d : Z) : bool := apart (d * 2 ^ (8 * j)).
Lemma upper1 : forallb (fun i => upper 1 (Z.of_nat i)) (seq 1 255) = true. Proof. vm_compute. reflexivity. Qed.
Lemma upper2 : forallb (fun i => upper 2 (Z.of_nat i)) (seq 1 255) = true. Proof. vm_compute. reflexivity. Qed.
Lemma upper3 : forallb (fun i => upper 3 (Z.of_nat i)) (seq 1 255) = true. Proof. vm_compute. reflexivity. Qed.
Lemma upper_apart j d : 1 <= j <= 3 -> 1 <= d <= 255 -> apart (d * 2 ^ (8 * j)) = true.
Proof.
  intros J D. change (upper j d = true). assert (E : j = 1 \/ j = 2 \/ j = 3) by lia. destruct E as [-> | [-> | ->]].
  - exact (forall_seq (upper 1) 1 255 d upper1 ltac:(lia)).
  - exact (forall_seq (upper 2) 1 255 d upper2 ltac:(lia)).
  - exact (forall_seq (upper 3) 1 255 d upper3 ltac:(lia)).
Qed.
Lemma apart_mixed x d w : apart d = true -> (w = 0 \/ w = 1) -> mixed x <> mixed (x + d - w * 2 ^ 32).
Proof.
  intros A W H. destruct (agree_of x d w W H) as (c & C & G & _). unfold apart in A. cbv zeta in A. apply Bool.negb_true_iff in A.
  rewrite !Bool.orb_false_iff in A. destruct A as [[[A0 A1] A2] A3]. unfold agree in G.
  destruct W as [-> | ->], C as [-> | ->];
    rewrite ?Z.mul_0_l, ?Z.sub_0_r, ?Z.mul_1_l, ?Z.add_0_r in G; congruence.
Qed.

(** ** The lowest byte *)
Definition far (d : Z) : bool :=
  let p := part d in (negb (agree d 0 0) && negb (agree d 1 0)) || ((2 ^ 24 <=? p) && (p <=? 2 ^ 32 - 2 ^ 24)).
Lemma low_byte_far : forallb (fun i => far (Z.of_nat i)) (seq 1 255) = true.
Proof. vm_compute. reflexivity. Qed.

(** the first value whose high half reaches [k * 2 ^ 24] *)
Definition border (k : Z) : Z := (k * 2 ^ 56 + prime - 1) / prime.
Lemma border_spec k x : border k <= x <-> k * 2 ^ 56 <= prime * x.
Proof. unfold border, prime. change (2 ^ 56) with 72057594037927936. lia. Qed.
(** Across a border the high halves differ in the bits 8 to 23, so the low halves do, and their
    sum is fixed modulo [2 ^ 24] but for the last byte. *)
Lemma complement u v : 0 <= u < 2 ^ 16 -> 0 <= v < 2 ^ 16 -> Z.lxor u v = 2 ^ 16 - 1 -> u + v = 2 ^ 16 - 1.
Proof.
  intros U V H. rewrite <- H. apply Z.add_nocarry_lxor. apply Z.bits_inj'. intros n N.
  rewrite Z.land_spec, Z.bits_0. apply (f_equal (fun z => Z.testbit z n)) in H. rewrite Z.lxor_spec in H.
  destruct (Z.lt_ge_cases n 16) as [L|G].
  - change (2 ^ 16 - 1) with (Z.ones 16) in H. rewrite Z.ones_spec_low in H by lia.
    destruct (Z.testbit u n), (Z.testbit v n); cbn in *; congruence.
  - replace (Z.testbit u n) with false; [reflexivity|]. symmetry.
    rewrite <- (Z.mod_small u (2 ^ 16)) by exact U. apply Z.mod_pow2_bits_high. lia.
Qed.
Definition middle (x : Z) : Z := (x / 2 ^ 8) mod 2 ^ 16.
Lemma middle_lxor a b : middle (Z.lxor a b) = Z.lxor (middle a) (middle b).
Proof.
  unfold middle. apply Z.bits_inj'. intros n N. rewrite Z.lxor_spec. destruct (Z.lt_ge_cases n 16).
  - rewrite !Z.mod_pow2_bits_low by lia. rewrite <- !Z.shiftr_div_pow2, !Z.shiftr_spec, Z.lxor_spec by lia. reflexivity.
  - rewrite !Z.mod_pow2_bits_high by lia. reflexivity.
Qed.
Lemma middle_range a : 0 <= middle a < 2 ^ 16.
Proof. apply Z.mod_pos_bound. reflexivity. Qed.
Lemma across m x y : mixed x = mixed y -> m * 2 ^ 24 - 256 <= high x < m * 2 ^ 24 -> m * 2 ^ 24 <= high y < m * 2 ^ 24 + 256 ->
  (prime * (x + y) + 256) mod 2 ^ 24 <= 510.
Proof.
  intros H X Y. unfold mixed in H. apply lxor_swap in H. apply (f_equal middle) in H. rewrite !middle_lxor in H.
  assert (HX : middle (high x) = 2 ^ 16 - 1).
  { unfold middle. change (2 ^ 24) with 16777216 in *. change (2 ^ 16) with 65536. change (2 ^ 8) with 256. lia. }
  assert (HY : middle (high y) = 0).
  { unfold middle. change (2 ^ 24) with 16777216 in *. change (2 ^ 16) with 65536. change (2 ^ 8) with 256. lia. }
  rewrite HX, HY, Z.lxor_0_r in H. apply complement in H; [|apply middle_range|apply middle_range].
  unfold middle, low in H. rewrite Z.mul_add_distr_l. set (p := prime * x) in *. set (q := prime * y) in *.
  change (2 ^ 16) with 65536 in H. change (2 ^ 8) with 256 in H. change (2 ^ 32) with 4294967296 in H. change (2 ^ 24) with 16777216.
  clearbody p q. clear -H. lia.
Qed.

(** the sums near a border that meet this *)
Definition next (s : Z) : Z := let t := s + 12836823 in if t <? 16777216 then t else t - 16777216.
Fixpoint hits (n : nat) (s y : Z) : list Z :=
  match n with
  | O => []
  | S n => if s <=? 510 then y :: hits n (next s) (y + 1) else hits n (next s) (y + 1)
  end.
Definition start (y : Z) : Z := (prime * y + 256) mod 2 ^ 24.
Lemma start_next y : next (start y) = start (y + 1).
Proof.
  unfold next, start, prime. change (2 ^ 24) with 16777216. cbv zeta.
  destruct (Z.ltb_spec ((3502497751 * y + 256) mod 16777216 + 12836823) 16777216) as [L|L]; lia.
Qed.
Lemma hits_spec n : forall y k, (k < n)%nat -> start (y + Z.of_nat k) <= 510 -> In (y + Z.of_nat k) (hits n (start y) y).
Proof.
  induction n as [|n IH]; intros y k K H; [lia|]. cbn [hits]. rewrite start_next. destruct k as [|k].
  - rewrite Z.add_0_r in *. rewrite (proj2 (Z.leb_le _ _) H). left. reflexivity.
  - replace (y + Z.of_nat (S k)) with (y + 1 + Z.of_nat k) in * by lia.
    pose proof (IH (y + 1) k ltac:(lia) H) as I. destruct (start y <=? 510); [right|]; exact I.
Qed.
Definition clear_pair (f : Z -> Z) (b s j : Z) : bool := let x := b - j in (s - x <=? x) || negb (f x =? f (s - x)).
Definition clear_at (n w : nat) (f : Z -> Z) (b : Z) : bool :=
  let a := 2 * b - Z.of_nat w in
  forallb (fun s => forallb (fun j => clear_pair f b s (Z.of_nat j)) (seq 1 w)) (hits n (start a) a).
Lemma clear_at_spec n w f b x d : Z.of_nat n = 2 * Z.of_nat w - 1 -> clear_at n w f b = true ->
  x < b <= x + d -> d <= Z.of_nat w -> start (x + (x + d)) <= 510 -> f x <> f (x + d).
Proof.
  intros N C X D A E. unfold clear_at in C. cbv zeta in C. rewrite forallb_forall in C.
  set (a := 2 * b - Z.of_nat w) in *.
  pose proof (hits_spec n a (Z.to_nat (x + (x + d) - a))) as H.
  assert (RK : (Z.to_nat (x + (x + d) - a) < n)%nat) by (unfold a; lia). specialize (H RK).
  rewrite Z2Nat.id in H by (unfold a; lia). replace (a + (x + (x + d) - a)) with (x + (x + d)) in H by ring.
  specialize (H A). specialize (C _ H).
  pose proof (forall_seq (clear_pair f b (x + (x + d))) 1 w (b - x) C ltac:(lia)) as P. unfold clear_pair in P. cbv zeta in P.
  replace (b - (b - x)) with x in P by ring. replace (x + (x + d) - x) with (x + d) in P by ring.
  rewrite E, Z.eqb_refl in P. cbn [negb] in P. rewrite Bool.orb_false_r in P. apply Z.leb_le in P.
  clear -P X. lia.
Qed.
Lemma borders_clear : forallb (fun k => clear_at 509 255 mixed (border (Z.of_nat k))) (seq 1 208) = true.
Proof. vm_compute. reflexivity. Qed.

(** where the sum wraps: the last 255 values against the first *)
Definition clear_of (f : Z -> Z) (c : Z) (n : nat) : bool :=
  let firsts := map (fun i => f (Z.of_nat i)) (seq 0 n) in
  forallb (fun j => let m := f (c - Z.of_nat j) in forallb (fun g => negb (m =? g)) firsts) (seq 1 n).
Lemma clear_of_spec f c n i j : clear_of f c n = true -> 1 <= j <= Z.of_nat n -> 0 <= i < Z.of_nat n -> f (c - j) <> f i.
Proof.
  intros C J I E. unfold clear_of in C. cbv zeta in C.
  assert (SJ : In (Z.to_nat j) (seq 1 n)) by (apply in_seq; lia).
  assert (SI : In (f i) (map (fun i => f (Z.of_nat i)) (seq 0 n))).
  { apply in_map_iff. exists (Z.to_nat i). rewrite Z2Nat.id by lia. split; [reflexivity|]. apply in_seq. lia. }
  rewrite forallb_forall in C. specialize (C _ SJ). rewrite forallb_forall in C. specialize (C _ SI).
  rewrite Z2Nat.id in C by lia. rewrite E, Z.eqb_refl in C. discriminate C.
Qed.
Lemma ends_clear : clear_of mixed (2 ^ 32) 255 = true.
Proof. vm_compute. reflexivity. Qed.
Lemma ends_spec j i : 1 <= j <= 255 -> 0 <= i < 255 -> mixed (2 ^ 32 - j) <> mixed i.
Proof. exact (fun J I => clear_of_spec mixed (2 ^ 32) 255 i j ends_clear J I). Qed.
Lemma wrapped x d : 0 <= x < 2 ^ 32 -> 1 <= d <= 255 -> 2 ^ 32 <= x + d -> mixed x <> mixed (x + d - 2 ^ 32).
Proof.
  intros X D W. pose proof (ends_spec (2 ^ 32 - x) (x + d - 2 ^ 32) ltac:(lia) ltac:(lia)) as K.
  replace (2 ^ 32 - (2 ^ 32 - x)) with x in K by ring. exact K.
Qed.

(** ** One byte *)
Lemma far_spec d c : 1 <= d <= 255 -> (c = 0 \/ c = 1) -> agree d c 0 = true -> 2 ^ 24 <= part d <= 2 ^ 32 - 2 ^ 24.
Proof.
  intros D. assert (F : far d = true) by exact (forall_seq far 1 255 d low_byte_far ltac:(lia)).
  intros C G. unfold far in F. cbv zeta in F. apply Bool.orb_true_iff in F. destruct F as [F|F].
  - apply Bool.andb_true_iff in F. destruct F as [F0 F1]. apply Bool.negb_true_iff in F0. apply Bool.negb_true_iff in F1.
    destruct C as [-> | ->]; congruence.
  - apply Bool.andb_true_iff in F. destruct F as [F0 F1]. apply Z.leb_le in F0. apply Z.leb_le in F1. split; assumption.
Qed.
Lemma more_range d : 1 <= d <= 255 -> 0 <= more d <= 208.
Proof. intros D. unfold more, prime. change (2 ^ 32) with 4294967296. lia. Qed.
Lemma border_between k x d : k * 2 ^ 24 - 256 <= high x < k * 2 ^ 24 -> k * 2 ^ 24 <= high (x + d) < k * 2 ^ 24 + 256 ->
  x < border k <= x + d.
Proof.
  intros KX KY. unfold high in KX, KY. change (2 ^ 32) with 4294967296 in *. change (2 ^ 24) with 16777216 in *. split.
  - destruct (Z.lt_ge_cases x (border k)) as [B|B]; [exact B|]. apply border_spec in B.
    change (2 ^ 56) with 72057594037927936 in B. lia.
  - apply border_spec. change (2 ^ 56) with 72057594037927936. lia.
Qed.
Lemma crossing h h' m c : 0 <= h < prime -> 0 <= h' < prime -> 0 <= m <= 208 -> (c = 0 \/ c = 1) -> h' = h + m + c ->
  h / 2 ^ 24 <> h' / 2 ^ 24 -> let k := h' / 2 ^ 24 in
  1 <= k <= 208 /\ k * 2 ^ 24 - 256 <= h < k * 2 ^ 24 /\ k * 2 ^ 24 <= h' < k * 2 ^ 24 + 256.
Proof. intros H H' M C U S. cbv zeta. unfold prime in *. change (2 ^ 24) with 16777216 in *. lia. Qed.
Lemma near_far l l' p c g : (c = 0 \/ c = 1) -> l' = l + p - c * 2 ^ 32 -> 2 ^ g <= p <= 2 ^ 32 - 2 ^ g -> - 2 ^ g < l' - l < 2 ^ g -> False.
Proof. intros C L P S. destruct C as [-> | ->]; lia. Qed.
Lemma lowest x d : 0 <= x -> 1 <= d <= 255 -> x + d < 2 ^ 32 -> mixed x <> mixed (x + d).
Proof.
  intros X D W.
  assert (HX : 0 <= high x < prime) by (apply high_range; lia).
  assert (HY : 0 <= high (x + d) < prime) by (apply high_range; lia).
  assert (D255 : d <= Z.of_nat 255) by lia. clear X W.
  intros E. assert (E0 : mixed x = mixed (x + d - 0 * 2 ^ 32)) by (rewrite Z.mul_0_l, Z.sub_0_r; exact E).
  destruct (agree_of x d 0 (or_introl eq_refl) E0) as (c & C & G & L & U). clear E0.
  pose proof (far_spec d c D C G) as P. clear G.
  destruct (Z.eq_dec (high x / 2 ^ 24) (high (x + d) / 2 ^ 24)) as [S|S].
  - apply (lxor_near _ _ 24 (Zle_0_pos 24)) in S. unfold mixed in E. apply lxor_swap in E. rewrite <- E in S.
    apply (near_lxor _ _ 24 (Zle_0_pos 24)) in S. exact (near_far _ _ _ _ 24 C L P S).
  - pose proof (crossing _ _ _ _ HX HY (more_range d D) C U S) as K. cbv zeta in K. set (k := high (x + d) / 2 ^ 24) in *.
    clearbody k. destruct K as (K & KX & KY).
    pose proof (across k x (x + d) E KX KY) as A.
    pose proof (border_between k x d KX KY) as BB.
    pose proof (forall_seq (fun k => clear_at 509 255 mixed (border k)) 1 208 k borders_clear ltac:(lia)) as B.
    revert E. exact (clear_at_spec 509 255 mixed (border k) x d eq_refl B BB D255 A).
Qed.
Lemma step_byte j x d : 0 <= j <= 3 -> 0 <= x < 2 ^ 32 -> 1 <= d <= 255 ->
  mixed x <> mixed (u32 (x + d * 2 ^ (8 * j))).
Proof.
  intros J X D. unfold u32.
  assert (R : 1 <= 2 ^ (8 * j) <= 2 ^ 24).
  { split; [change 1 with (2 ^ 0)|]; apply Z.pow_le_mono_r; lia. }
  assert (Q : 0 < d * 2 ^ (8 * j) < 2 ^ 32) by (change (2 ^ 24) with 16777216 in R; change (2 ^ 32) with 4294967296; nia).
  destruct (Z.lt_ge_cases (x + d * 2 ^ (8 * j)) (2 ^ 32)) as [L|G].
  - rewrite Z.mod_small by lia. destruct (Z.eq_dec j 0) as [-> |N].
    + change (2 ^ (8 * 0)) with 1 in *. rewrite Z.mul_1_r in *. apply lowest; lia.
    + pose proof (upper_apart j d ltac:(lia) D) as A.
      pose proof (apart_mixed x _ 0 A (or_introl eq_refl)) as M. rewrite Z.mul_0_l, Z.sub_0_r in M. exact M.
  - replace ((x + d * 2 ^ (8 * j)) mod 2 ^ 32) with (x + d * 2 ^ (8 * j) - 2 ^ 32)
      by (symmetry; rewrite <- (Z_mod_plus_full _ (-1)); rewrite Z.mod_small by lia; ring).
    destruct (Z.eq_dec j 0) as [-> |N].
    + change (2 ^ (8 * 0)) with 1 in *. rewrite Z.mul_1_r in *. apply wrapped; lia.
    + pose proof (upper_apart j d ltac:(lia) D) as A.
      pose proof (apart_mixed x _ 1 A (or_intror eq_refl)) as M. rewrite Z.mul_1_l in M. exact M.
Qed.
(** Two words that differ in one byte are mixed differently under every signature. *)
Lemma mixup_byte j chirp v w sig : 0 <= j <= 3 -> 0 <= v <= 255 -> 0 <= w <= 255 -> v <> w ->
  mixup (chirp + v * 2 ^ (8 * j)) sig <> mixup (chirp + w * 2 ^ (8 * j)) sig.
Proof.
  assert (K : forall v w, 0 <= j <= 3 -> 0 <= v <= 255 -> 0 <= w <= 255 -> v < w ->
    mixup (chirp + v * 2 ^ (8 * j)) sig <> mixup (chirp + w * 2 ^ (8 * j)) sig).
  { clear v w. intros v w J V W L. rewrite !mixup_mixed.
    replace (u32 (chirp + w * 2 ^ (8 * j) + sig)) with (u32 (u32 (chirp + v * 2 ^ (8 * j) + sig) + (w - v) * 2 ^ (8 * j))).
    - apply step_byte; [exact J| |lia]. apply Z.mod_pos_bound. reflexivity.
    - unfold u32. rewrite Zplus_mod_idemp_l. f_equal. ring. }
  intros J V W N. destruct (Z.lt_ge_cases v w) as [L|G].
  - apply K; assumption.
  - intros E. symmetry in E. revert E. apply K; try assumption. lia.
Qed.

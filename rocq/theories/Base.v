(** * Base: wrap-around arithmetic, bit lemmas, list updates, tactics.

    Generic helpers; nothing in this file models a particular function of /repo
    except where a comment says so. *)
From Coq Require Export ZArith List Bool Lia.
From Coq Require Import ZifyBool ZifyNat.
Export ListNotations.
Open Scope Z_scope.

(** Value of a C++ unsigned 8/16/32/64-bit object after assignment (modular). *)
Definition u8 (x : Z) : Z := x mod 2 ^ 8.
Definition u16 (x : Z) : Z := x mod 2 ^ 16.
Definition u32 (x : Z) : Z := x mod 2 ^ 32.
Definition u64 (x : Z) : Z := x mod 2 ^ 64.

(** Two's complement reading of the low [n] bits. *)
Definition sgn (n : Z) (x : Z) : Z :=
  let y := x mod 2 ^ n in if y <? 2 ^ (n - 1) then y else y - 2 ^ n.

Definition isbyte (x : Z) : Prop := 0 <= x < 256.
Definition isunit (x : Z) : Prop := 0 <= x < 2 ^ 32.

(** src: fast_positive/tuples/essentials.h:160-165 (bytes2units, units2bytes). *)
Definition bytes2units (b : Z) : Z := Z.shiftr (b + 4 - 1) 2.
Definition units2bytes (u : Z) : Z := Z.shiftl u 2.

Lemma bytes2units_div b : bytes2units b = (b + 3) / 4.
Proof.
  unfold bytes2units. rewrite Z.shiftr_div_pow2 by lia.
  change (2 ^ 2) with 4. f_equal; lia.
Qed.

Lemma units2bytes_mul u : units2bytes u = 4 * u.
Proof. unfold units2bytes. rewrite Z.shiftl_mul_pow2 by lia. lia. Qed.

(** ** Bit lemmas *)
Lemma land_mask x n : 0 <= n -> Z.land x (2 ^ n - 1) = x mod 2 ^ n.
Proof. intros Hn. rewrite <- (Z.land_ones x n Hn). f_equal. rewrite Z.ones_equiv. lia. Qed.

Lemma testbit_split a b k i :
  0 <= k -> 0 <= b < 2 ^ k -> 0 <= i ->
  Z.testbit (a * 2 ^ k + b) i = if i <? k then Z.testbit b i else Z.testbit a (i - k).
Proof.
  intros Hk Hb Hi.
  destruct (Z.ltb_spec i k) as [Hlt|Hge].
  - rewrite <- (Z.mod_pow2_bits_low (a * 2 ^ k + b) k i) by lia.
    rewrite Z.add_comm, Z.mod_add, Z.mod_small by lia. reflexivity.
  - replace i with (i - k + k) at 1 by lia.
    rewrite <- Z.div_pow2_bits by lia.
    rewrite Z.add_comm, Z.div_add, Z.div_small by lia. f_equal.
Qed.

Lemma lor_bound a b k : 0 <= k -> 0 <= a < 2 ^ k -> 0 <= b < 2 ^ k -> 0 <= Z.lor a b < 2 ^ k.
Proof.
  intros Hk Ha Hb. split; [apply Z.lor_nonneg; lia|].
  destruct (Z.eq_dec (Z.lor a b) 0) as [E|E]; [rewrite E; apply Z.pow_pos_nonneg; lia|].
  assert (0 <= Z.lor a b) by (apply Z.lor_nonneg; lia).
  apply Z.log2_lt_pow2; [lia|].
  rewrite Z.log2_lor by lia.
  destruct (Z.eq_dec a 0) as [Ea|Ea]; destruct (Z.eq_dec b 0) as [Eb|Eb]; subst.
  - exfalso. apply E. reflexivity.
  - rewrite Z.max_r; [apply Z.log2_lt_pow2; lia | apply Z.log2_nonneg].
  - rewrite Z.max_l; [apply Z.log2_lt_pow2; lia | apply Z.log2_nonneg].
  - apply Z.max_lub_lt; apply Z.log2_lt_pow2; lia.
Qed.

Lemma land_bound_r a b : 0 <= b -> 0 <= Z.land a b <= b.
Proof.
  intros Hb. split; [apply Z.land_nonneg; lia|].
  destruct (Z.le_gt_cases 0 a) as [Ha|Ha].
  - apply Z.ldiff_le; [lia|]. apply Z.bits_inj'; intros n Hn.
    rewrite Z.ldiff_spec, Z.land_spec, Z.bits_0.
    destruct (Z.testbit a n), (Z.testbit b n); reflexivity.
  - apply Z.ldiff_le; [lia|]. apply Z.bits_inj'; intros n Hn.
    rewrite Z.ldiff_spec, Z.land_spec, Z.bits_0.
    destruct (Z.testbit a n), (Z.testbit b n); reflexivity.
Qed.

Lemma lor_split a b c d k :
  0 <= k -> 0 <= b < 2 ^ k -> 0 <= d < 2 ^ k ->
  Z.lor (a * 2 ^ k + b) (c * 2 ^ k + d) = Z.lor a c * 2 ^ k + Z.lor b d.
Proof.
  intros Hk Hb Hd. apply Z.bits_inj'. intros i Hi.
  rewrite Z.lor_spec, !testbit_split by (try lia; try apply lor_bound; lia).
  destruct (i <? k); rewrite Z.lor_spec; reflexivity.
Qed.

Lemma land_split a b c d k :
  0 <= k -> 0 <= b < 2 ^ k -> 0 <= d < 2 ^ k ->
  Z.land (a * 2 ^ k + b) (c * 2 ^ k + d) = Z.land a c * 2 ^ k + Z.land b d.
Proof.
  intros Hk Hb Hd. apply Z.bits_inj'. intros i Hi.
  rewrite Z.land_spec, !testbit_split by (try lia; pose proof (land_bound_r b d); lia).
  destruct (i <? k); rewrite Z.land_spec; reflexivity.
Qed.

Lemma lxor_bound a b k : 0 <= k -> 0 <= a < 2 ^ k -> 0 <= b < 2 ^ k -> 0 <= Z.lxor a b < 2 ^ k.
Proof.
  intros Hk Ha Hb.
  assert (E : Z.lxor a b mod 2 ^ k = Z.lxor a b).
  { rewrite <- Z.land_ones by lia. apply Z.bits_inj'. intros i Hi.
    rewrite Z.land_spec, Z.lxor_spec, Z.ones_equiv.
    destruct (Z.ltb_spec i k) as [L|G].
    - rewrite <- Z.ones_equiv, Z.ones_spec_low by lia. apply andb_true_r.
    - rewrite <- (Z.mod_small a (2 ^ k)), <- (Z.mod_small b (2 ^ k)) by lia.
      rewrite !Z.mod_pow2_bits_high by lia. reflexivity. }
  rewrite <- E. apply Z.mod_pos_bound, Z.pow_pos_nonneg; lia.
Qed.

Lemma mod_mod_small x n : 0 <= x < n -> x mod n = x.
Proof. intros; apply Z.mod_small; lia. Qed.

(** ** Lists indexed by [nat] *)
Section Upd.
  Context {A : Type}.

  Fixpoint upd (l : list A) (n : nat) (x : A) : list A :=
    match l, n with
    | [], _ => []
    | _ :: t, O => x :: t
    | h :: t, S m => h :: upd t m x
    end.

  Lemma upd_length l n x : length (upd l n x) = length l.
  Proof. revert n; induction l as [|h t IH]; intros [|n]; cbn; auto. Qed.

  Lemma nth_error_upd_eq l n x : (n < length l)%nat -> nth_error (upd l n x) n = Some x.
  Proof.
    revert n; induction l as [|h t IH]; intros [|n] H; cbn in *; try lia; auto.
    apply IH; lia.
  Qed.

  Lemma nth_error_upd_ne l n m x : n <> m -> nth_error (upd l n x) m = nth_error l m.
  Proof.
    revert n m; induction l as [|h t IH]; intros [|n] [|m] H; cbn; auto; try congruence.
  Qed.

  Lemma nth_error_upd l n m x :
    nth_error (upd l n x) m =
    if Nat.eqb n m then (if Nat.ltb m (length l) then Some x else None) else nth_error l m.
  Proof.
    destruct (Nat.eqb_spec n m) as [E|E].
    - subst. destruct (Nat.ltb_spec m (length l)) as [L|L].
      + apply nth_error_upd_eq; auto.
      + apply nth_error_None. rewrite upd_length; lia.
    - apply nth_error_upd_ne; auto.
  Qed.

  Lemma upd_self l n x : nth_error l n = Some x -> upd l n x = l.
  Proof.
    revert n; induction l as [|h t IH]; intros [|n] H; cbn in *; try congruence.
    f_equal; auto.
  Qed.

  Lemma upd_upd l n x y : upd (upd l n x) n y = upd l n y.
  Proof. revert n; induction l as [|h t IH]; intros [|n]; cbn; auto. f_equal; auto. Qed.

  Lemma upd_comm l n m x y : n <> m -> upd (upd l n x) m y = upd (upd l m y) n x.
  Proof.
    revert n m; induction l as [|h t IH]; intros [|n] [|m] H; cbn; auto; try congruence.
    f_equal; auto.
  Qed.
End Upd.

(** Exhaustive finite quantification over [0 <= x < n], for finite domains. *)
Fixpoint all_below (n : nat) (f : Z -> bool) : bool :=
  match n with
  | O => true
  | S m => f (Z.of_nat m) && all_below m f
  end.

Lemma all_below_spec n f : all_below n f = true -> forall x, 0 <= x < Z.of_nat n -> f x = true.
Proof.
  induction n as [|m IH]; cbn [all_below]; intros H x Hx; [lia|].
  apply andb_prop in H as [H1 H2].
  destruct (Z.eq_dec x (Z.of_nat m)) as [->|E]; auto.
  apply IH; auto; lia.
Qed.

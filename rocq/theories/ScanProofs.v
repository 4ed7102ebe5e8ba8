(** * Proofs about the index scan *)
From Verif Require Import Base Hippeus HippeusProofs Scan.
From Coq Require Import ZifyBool ZifyNat.
Ltac Zify.zify_post_hook ::= Z.div_mod_to_equations.

(** the answer the scans are compared with: the first of [n] entries at [a] that carries [tag] *)
Fixpoint first (m : bmem) (tag : Z) (n : nat) (a : Z) : option Z :=
  match n with
  | O => None
  | S k => if tag =? tag_at m a then Some a else first m tag k (a + 4)
  end.

Lemma first_app : forall m tag n k a,
  first m tag (n + k) a = match first m tag n a with Some p => Some p | None => first m tag k (a + 4 * Z.of_nat n) end.
Proof.
  induction n; intros k a.
  - cbn [Nat.add first]. f_equal. lia.
  - cbn [Nat.add first]. destruct (tag =? tag_at m a); [reflexivity|]. rewrite IHn.
    replace (a + 4 + 4 * Z.of_nat n) with (a + 4 * Z.of_nat (S n)) by lia. reflexivity.
Qed.
Lemma first_none : forall m tag n a, first m tag n a = None ->
  forall k, 0 <= k < Z.of_nat n -> tag_at m (a + 4 * k) <> tag.
Proof.
  induction n; intros a H k Hk; [lia|]. cbn [first] in H.
  destruct (tag =? tag_at m a) eqn:E; [discriminate|]. destruct (Z.eq_dec k 0) as [->|N].
  - replace (a + 4 * 0) with a by lia. lia.
  - replace (a + 4 * k) with (a + 4 + 4 * (k - 1)) by lia. apply IHn; [assumption|lia].
Qed.
Lemma first_some : forall m tag n a p, first m tag n a = Some p ->
  exists k, 0 <= k < Z.of_nat n /\ p = a + 4 * k /\ tag_at m p = tag /\
            forall i, 0 <= i < k -> tag_at m (a + 4 * i) <> tag.
Proof.
  induction n; intros a p H; [discriminate|]. cbn [first] in H.
  destruct (tag =? tag_at m a) eqn:E.
  - injection H as <-. exists 0. repeat split; try lia.
  - destruct (IHn _ _ H) as (k & Hk & P & T & B). exists (k + 1). repeat split; try lia.
    intros i Hi. destruct (Z.eq_dec i 0) as [->|N].
    + replace (a + 4 * 0) with a by lia. lia.
    + replace (a + 4 * i) with (a + 4 + 4 * (i - 1)) by lia. apply B. lia.
Qed.
Lemma first_none_intro : forall m tag n a,
  (forall k, 0 <= k < Z.of_nat n -> tag_at m (a + 4 * k) <> tag) -> first m tag n a = None.
Proof.
  intros m tag n a H. destruct (first m tag n a) as [p|] eqn:E; [|reflexivity]. exfalso.
  destruct (first_some _ _ _ _ _ E) as (k & Hk & P & T & _). apply (H k Hk). rewrite <- P. exact T.
Qed.
Lemma first_some_intro : forall m tag n a k, 0 <= k < Z.of_nat n -> tag_at m (a + 4 * k) = tag ->
  (forall i, 0 <= i < k -> tag_at m (a + 4 * i) <> tag) -> first m tag n a = Some (a + 4 * k).
Proof.
  intros m tag n a k Hk T B. destruct (first m tag n a) as [p|] eqn:E.
  - destruct (first_some _ _ _ _ _ E) as (j & Hj & P & T' & B').
    assert (j = k). { destruct (Z.lt_trichotomy j k) as [L|[?|L]]; [|assumption|].
      - exfalso. apply (B j); [lia|]. rewrite <- P. assumption.
      - exfalso. apply (B' k); [lia|]. assumption. }
    subst. reflexivity.
  - exfalso. exact (first_none _ _ _ _ E k Hk T).
Qed.
(** the last step may start inside the part already searched *)
Lemma first_overlap : forall m tag n w j a, (w <= n)%nat -> (n - w <= j)%nat -> (j <= n)%nat -> first m tag j a = None ->
  first m tag w (a + 4 * Z.of_nat (n - w)) = first m tag n a.
Proof.
  intros m tag n w j a Hw Hj Hn E. replace n with ((n - w) + w)%nat at 2 by lia. rewrite first_app.
  assert (Q : first m tag (n - w) a = None).
  { apply first_none_intro. intros k Hk. apply (first_none _ _ _ _ E). lia. }
  rewrite Q. reflexivity.
Qed.

(** ** the reference and the unrolled scans *)
Lemma referential_first : forall m tag fuel scan e n, e = scan + 4 * Z.of_nat n -> (n < fuel)%nat ->
  fst (referential_loop fuel m tag scan e) = first m tag n scan.
Proof.
  induction fuel; intros scan e n He Hf; [lia|]. cbn [referential_loop]. destruct n.
  - replace (scan <? e) with false by lia. reflexivity.
  - replace (scan <? e) with true by lia. cbn [first]. destruct (tag =? tag_at m scan); [reflexivity|].
    rewrite <- (IHfuel (scan + 4) e n) by lia. destruct (referential_loop fuel m tag (scan + 4) e). reflexivity.
Qed.
Lemma referential_hollow : forall m tag fuel scan e, e <= scan -> referential_loop fuel m tag scan e = (None, []).
Proof. intros m tag fuel scan e H. destruct fuel; cbn [referential_loop]; [reflexivity|]. replace (scan <? e) with false by lia. reflexivity. Qed.

(** a step that answers for the [w] entries at [scan] *)
Definition good_step m tag (w : nat) (step : Z -> option Z * trace) : Prop :=
  forall a, fst (step a) = first m tag w a.

Lemma run_steps_first : forall m tag w step, good_step m tag w step -> forall n scan,
  let '(r, s, _) := run_steps step (4 * Z.of_nat w) n scan in
  r = first m tag (n * w) scan /\ (r = None -> s = scan + 4 * Z.of_nat (n * w)).
Proof.
  intros m tag w step G. induction n; intros scan.
  - cbn. split; [reflexivity|intros; lia].
  - cbn [run_steps]. specialize (G scan). destruct (step scan) as [[p|] t] eqn:E; cbn [fst] in G.
    + replace (S n * w)%nat with (w + n * w)%nat by lia. rewrite first_app, <- G. split; [reflexivity|discriminate].
    + specialize (IHn (scan + 4 * Z.of_nat w)). destruct (run_steps step (4 * Z.of_nat w) n (scan + 4 * Z.of_nat w)) as [[r s] t'].
      destruct IHn as [A B]. replace (S n * w)%nat with (w + n * w)%nat by lia. rewrite first_app, <- G.
      split; [assumption|]. intros Q. rewrite (B Q). lia.
Qed.
Lemma run_blocks_first : forall m tag w step, (0 < w)%nat -> good_step m tag w step -> forall fuel scan n,
  (8 * w <= n)%nat -> (n < fuel * (8 * w))%nat ->
  let '(r, s, _) := run_blocks fuel step (4 * Z.of_nat w) scan (scan + 4 * Z.of_nat n - 4 * (8 * Z.of_nat w - 1)) in
  r = first m tag (n / (8 * w) * (8 * w)) scan /\ (r = None -> s = scan + 4 * Z.of_nat (n / (8 * w) * (8 * w))).
Proof.
  intros m tag w step Hw G. induction fuel; intros scan n Hn Hf; [lia|].
  cbn [run_blocks]. pose proof (run_steps_first m tag w step G 8 scan) as R.
  destruct (run_steps step (4 * Z.of_nat w) 8 scan) as [[r s] t]. destruct R as [A B].
  assert (D : (n / (8 * w) * (8 * w) = 8 * w + (n - 8 * w) / (8 * w) * (8 * w))%nat).
  { replace n with (n - 8 * w + 1 * (8 * w))%nat at 1 by lia. rewrite Nat.div_add by lia. lia. }
  rewrite D, first_app, <- A. destruct r as [p|]; [split; [reflexivity|discriminate]|].
  specialize (B eq_refl). subst s.
  destruct (scan + 4 * Z.of_nat (8 * w) <? scan + 4 * Z.of_nat n - 4 * (8 * Z.of_nat w - 1)) eqn:C.
  - specialize (IHfuel (scan + 4 * Z.of_nat (8 * w)) (n - 8 * w)%nat ltac:(lia) ltac:(lia)).
    replace (scan + 4 * Z.of_nat (8 * w) + 4 * Z.of_nat (n - 8 * w) - 4 * (8 * Z.of_nat w - 1))
      with (scan + 4 * Z.of_nat n - 4 * (8 * Z.of_nat w - 1)) in IHfuel by lia.
    destruct (run_blocks fuel step (4 * Z.of_nat w) (scan + 4 * Z.of_nat (8 * w)) (scan + 4 * Z.of_nat n - 4 * (8 * Z.of_nat w - 1))) as [[r s] t'].
    destruct IHfuel as [A' B']. split; [assumption|]. intros Q. rewrite (B' Q). lia.
  - rewrite (Nat.div_small (n - 8 * w)) by lia. split; [reflexivity|]. intros _. lia.
Qed.

Lemma step1_good : forall m tag, good_step m tag 1 (step1 m tag).
Proof. intros m tag a. reflexivity. Qed.

Lemma unroll_first : forall m tag begin n, fst (scan_unroll m begin (begin + 4 * Z.of_nat n) tag) = first m tag n begin.
Proof.
  intros m tag begin n. unfold scan_unroll. replace ((begin + 4 * Z.of_nat n - begin) / 4) with (Z.of_nat n) by lia.
  replace (Z.of_nat n <? 0) with false by lia. destruct (Z.of_nat n <=? 8) eqn:E.
  - rewrite Nat2Z.id. pose proof (run_steps_first m tag 1 _ (step1_good m tag) n begin) as R.
    change (4 * Z.of_nat 1) with 4 in R. destruct (run_steps (step1 m tag) 4 n begin) as [[r s] t].
    destruct R as [A _]. rewrite Nat.mul_1_r in A. exact A.
  - pose proof (run_blocks_first m tag 1 _ ltac:(lia) (step1_good m tag) (Z.to_nat (Z.of_nat n)) begin n ltac:(lia) ltac:(lia)) as R.
    change (4 * Z.of_nat 1) with 4 in R. replace (4 * (8 * Z.of_nat 1 - 1)) with (7 * 4) in R by lia.
    change (8 * 1)%nat with 8%nat in R.
    destruct (run_blocks (Z.to_nat (Z.of_nat n)) (step1 m tag) 4 begin (begin + 4 * Z.of_nat n - 7 * 4)) as [[r s] t].
    destruct R as [A B]. pose proof (Nat.div_mod n 8 ltac:(lia)) as DM.
    assert (FE : first m tag n begin = first m tag (n / 8 * 8 + n mod 8) begin) by (f_equal; lia).
    rewrite FE, first_app, <- A. destruct r as [p|]; [reflexivity|].
    rewrite (B eq_refl). replace (Z.to_nat (Z.land (Z.of_nat n) 7)) with (n mod 8)%nat.
    2:{ change 7 with (Z.ones 3). rewrite Z.land_ones by lia. lia. }
    pose proof (run_steps_first m tag 1 _ (step1_good m tag) (n mod 8) (begin + 4 * Z.of_nat (n / 8 * 8))) as R'.
    change (4 * Z.of_nat 1) with 4 in R'.
    destruct (run_steps (step1 m tag) 4 (n mod 8) (begin + 4 * Z.of_nat (n / 8 * 8))) as [[r' s'] t'].
    destruct R' as [A' _]. rewrite Nat.mul_1_r in A'. exact A'.
Qed.

(** ** the wide scans: control *)
Lemma wide_tail_first : forall m tag w step, (0 < w)%nat -> good_step m tag w step -> forall begin n j c,
  (w <= n)%nat -> first m tag j begin = None -> (j + (c - 1) * w <= n)%nat -> (n <= j + c * w)%nat ->
  (c = 0 -> j = n)%nat ->
  fst (wide_tail step (Z.of_nat w) (begin + 4 * Z.of_nat n) (Z.of_nat c) (begin + 4 * Z.of_nat j)) = first m tag n begin.
Proof.
  intros m tag w step Hw G begin n j c Hn J L U C0. unfold wide_tail. destruct (Z.of_nat c =? 0) eqn:E.
  - rewrite <- C0 by lia. symmetry. exact J.
  - replace (Z.to_nat (Z.of_nat c - 1)) with (c - 1)%nat by lia.
    pose proof (run_steps_first m tag w step G (c - 1) (begin + 4 * Z.of_nat j)) as R.
    destruct (run_steps step (4 * Z.of_nat w) (c - 1) (begin + 4 * Z.of_nat j)) as [[r s] t]. destruct R as [A _].
    destruct r as [p|].
    + replace n with (j + (c - 1) * w + (n - (j + (c - 1) * w)))%nat by lia.
      rewrite first_app, first_app, J, <- A. reflexivity.
    + assert (F : first m tag (j + (c - 1) * w) begin = None) by (rewrite first_app, J, <- A; reflexivity).
      pose proof (G (begin + 4 * Z.of_nat n - 4 * Z.of_nat w)) as H.
      destruct (step (begin + 4 * Z.of_nat n - 4 * Z.of_nat w)) as [r t']. cbn [fst] in *. rewrite H.
      rewrite <- (first_overlap m tag n w (j + (c - 1) * w) begin Hn ltac:(clear - U E; destruct c; lia) L F). f_equal. lia.
Qed.

Lemma wide_first : forall m tag w lg step, (0 < w)%nat -> 0 <= lg -> 4 * Z.of_nat w = 2 ^ lg -> good_step m tag w step ->
  forall begin n, (w <= n)%nat ->
  fst (wide_scan step (Z.of_nat w) lg begin (begin + 4 * Z.of_nat n)) = first m tag n begin.
Proof.
  intros m tag w lg step Hw Hlg Hp G begin n Hn. unfold wide_scan.
  replace (begin + 4 * Z.of_nat n - begin) with (4 * Z.of_nat n) by lia.
  rewrite !Z.shiftr_div_pow2 by lia. rewrite <- Hp.
  assert (Ch : forall k, (4 * Z.of_nat k + (4 * Z.of_nat w - 1)) / (4 * Z.of_nat w) = Z.of_nat ((k + (w - 1)) / w)).
  { intros k. rewrite Nat2Z.inj_div. symmetry.
    apply (Z.div_unique_pos _ _ _ (4 * (Z.of_nat (k + (w - 1)) mod Z.of_nat w) + 3)).
    - pose proof (Z.mod_pos_bound (Z.of_nat (k + (w - 1))) (Z.of_nat w) ltac:(lia)). lia.
    - pose proof (Z.div_mod (Z.of_nat (k + (w - 1))) (Z.of_nat w) ltac:(lia)). lia. }
  assert (Cl : forall k, ((k + (w - 1)) / w * w <= k + (w - 1) /\ k <= (k + (w - 1)) / w * w)%nat).
  { intros k. pose proof (Nat.div_mod (k + (w - 1)) w ltac:(lia)). pose proof (Nat.mod_upper_bound (k + (w - 1)) w ltac:(lia)). lia. }
  rewrite Ch. destruct (Z.of_nat ((n + (w - 1)) / w) <=? 8) eqn:E.
  - pose proof (wide_tail_first m tag w step Hw G begin n 0 ((n + (w - 1)) / w) Hn eq_refl) as T.
    destruct (Cl n). replace (begin + 4 * Z.of_nat 0) with begin in T by lia. apply T.
    + destruct ((n + (w - 1)) / w)%nat; lia.
    + lia.
    + intros Z0. lia.
  - destruct (Cl n) as [C1 C2]. set (c := ((n + (w - 1)) / w)%nat) in *.
    assert (N8 : (8 * w <= n)%nat).
    { assert (9 <= c)%nat by lia. assert (9 * w <= c * w)%nat by (apply Nat.mul_le_mono_r; lia). lia. }
    assert (Nf : (n < c * (8 * w))%nat). { replace (c * (8 * w))%nat with (8 * (c * w))%nat by lia. clear - C2 Hw Hn. lia. }
    pose proof (run_blocks_first m tag w step Hw G (Z.to_nat (Z.of_nat c)) begin n N8 ltac:(rewrite Nat2Z.id; exact Nf)) as R.
    destruct (run_blocks (Z.to_nat (Z.of_nat c)) step (4 * Z.of_nat w) begin (begin + 4 * Z.of_nat n - 4 * (8 * Z.of_nat w - 1))) as [[r s] t].
    destruct R as [A B]. set (j := (n / (8 * w) * (8 * w))%nat) in *.
    pose proof (Nat.div_mod n (8 * w) ltac:(lia)) as DM. pose proof (Nat.mod_upper_bound n (8 * w) ltac:(lia)) as MB.
    assert (J : (n = j + n mod (8 * w))%nat) by (unfold j; lia).
    destruct r as [p|].
    + cbn [fst]. rewrite J, first_app, <- A. reflexivity.
    + specialize (B eq_refl). subst s.
      assert (La : Z.land (4 * Z.of_nat n) (32 * Z.of_nat w - 1) = 4 * Z.of_nat (n mod (8 * w))).
      { replace (32 * Z.of_nat w - 1) with (Z.ones (lg + 3)).
        2:{ rewrite Z.ones_equiv, Z.pow_add_r, <- Hp by lia. lia. }
        rewrite Z.land_ones by lia. rewrite Z.pow_add_r, <- Hp by lia.
        rewrite Nat2Z.inj_mod. replace (4 * Z.of_nat w * 2 ^ 3) with (4 * Z.of_nat (8 * w)) by lia.
        rewrite Z.mul_mod_distr_l by lia. reflexivity. }
      rewrite La, Ch. set (k := (n mod (8 * w))%nat) in *. destruct (Cl k) as [K1 K2]. set (c' := ((k + (w - 1)) / w)%nat) in *.
      pose proof (wide_tail_first m tag w step Hw G begin n j c' Hn (eq_sym A)) as T.
      destruct (wide_tail step (Z.of_nat w) (begin + 4 * Z.of_nat n) (Z.of_nat c') (begin + 4 * Z.of_nat j)) as [r' t'].
      cbn [fst] in *. apply T.
      * destruct c'; lia.
      * lia.
      * intros Z0. rewrite Z0 in *. lia.
Qed.

(** ** the wide scans: masks *)
Lemma ctz_least : forall n mask i j, i <= j < i + Z.of_nat n -> Z.testbit mask j = true ->
  (forall k, i <= k < j -> Z.testbit mask k = false) -> ctz n mask i = j.
Proof.
  induction n; intros mask i j Hj T B; [lia|]. cbn [ctz]. destruct (Z.eq_dec i j) as [->|N].
  - rewrite T. reflexivity.
  - rewrite (B i) by lia. apply IHn; [lia|assumption|]. intros k Hk. apply B. lia.
Qed.
Lemma mask_first : forall m tag n a st off mask W, 0 <= off < st -> st * Z.of_nat n <= Z.of_nat W ->
  (forall j, 0 <= j -> Z.testbit mask j = (j <? st * Z.of_nat n) && (j mod st =? off) && (tag_at m (a + 4 * (j / st)) =? tag)) ->
  first m tag n a = (if mask =? 0 then None else Some (a + 4 * (ctz W mask 0 / st))) /\
  (mask =? 0 = false -> ctz W mask 0 mod st = off).
Proof.
  intros m tag n a st off mask W Ho HW Hb.
  assert (Q : forall k, (st * k + off) / st = k /\ (st * k + off) mod st = off).
  { intros k. split; [symmetry; apply (Z.div_unique_pos _ _ _ off); lia | symmetry; apply (Z.mod_unique_pos _ _ k); lia]. }
  destruct (first m tag n a) as [p|] eqn:E.
  - destruct (first_some _ _ _ _ _ E) as (k & Hk & P & T & B). destruct (Q k) as [Q1 Q2].
    assert (K : 0 <= st * k) by (apply Z.mul_nonneg_nonneg; lia).
    assert (K' : st * k + off < st * Z.of_nat n).
    { assert (st * (k + 1) <= st * Z.of_nat n) by (apply Z.mul_le_mono_nonneg_l; lia). lia. }
    assert (T1 : Z.testbit mask (st * k + off) = true).
    { rewrite Hb by lia. rewrite Q1, Q2, <- P, T, !Z.eqb_refl. apply Z.ltb_lt in K'. rewrite K'. reflexivity. }
    assert (C : ctz W mask 0 = st * k + off).
    { apply ctz_least; [lia|assumption|]. intros j Hj. destruct (Z.testbit mask j) eqn:D; [exfalso|reflexivity].
      rewrite Hb in D by lia. rewrite !Bool.andb_true_iff in D. destruct D as [[D1 D2] D3].
      apply Z.eqb_eq in D2, D3. pose proof (Z.div_mod j st ltac:(clear - Ho; lia)) as DM. rewrite D2 in DM.
      apply (B (j / st)); [|assumption]. split; [apply Z.div_pos; clear - Hj Ho; lia|].
      apply (Z.mul_lt_mono_pos_l st); [clear - Ho; lia|]. remember (j / st) as q eqn:Eq. clear - DM Hj. lia. }
    assert (mask =? 0 = false) as ->. { destruct (Z.eqb_spec mask 0) as [Z0|]; [|reflexivity]. rewrite Z0, Z.testbit_0_l in T1. discriminate. }
    rewrite C, Q1, Q2, P. split; [reflexivity|intros; reflexivity].
  - assert (Z0 : mask = 0).
    { apply Z.bits_inj'. intros j Hj. rewrite Z.testbit_0_l, Hb by assumption.
      destruct (_ && _) eqn:D; [exfalso|reflexivity]. rewrite !Bool.andb_true_iff in D. destruct D as [[D1 D2] D3].
      apply Z.eqb_eq in D3. apply (first_none _ _ _ _ E (j / st)); [|assumption].
      split; [apply Z.div_pos; lia|]. apply Z.div_lt_upper_bound; lia. }
    rewrite Z0. cbn [Z.eqb]. split; [reflexivity|discriminate].
Qed.
Lemma mask2ptr16_first : forall m tag n a mask, 4 * Z.of_nat n <= 32 ->
  (forall j, 0 <= j -> Z.testbit mask j = (j <? 4 * Z.of_nat n) && (j mod 4 =? 2) && (tag_at m (a + 4 * (j / 4)) =? tag)) ->
  mask2ptr16 mask a = first m tag n a.
Proof.
  intros m tag n a mask Hn Hb. destruct (mask_first m tag n a 4 2 mask 32 ltac:(lia) ltac:(lia) Hb) as [E M].
  unfold mask2ptr16. rewrite E. destruct (mask =? 0); [reflexivity|]. specialize (M eq_refl). f_equal. lia.
Qed.
Lemma mask2ptr_ps_first : forall m tag n a mask, Z.of_nat n <= 8 ->
  (forall j, 0 <= j -> Z.testbit mask j = (j <? Z.of_nat n) && (tag_at m (a + 4 * j) =? tag)) ->
  mask2ptr_ps mask a = first m tag n a.
Proof.
  intros m tag n a mask Hn Hb. destruct (mask_first m tag n a 1 0 mask 8 ltac:(lia) ltac:(lia)) as [E M].
  { intros j Hj. rewrite Hb by assumption. rewrite Z.mul_1_l, Z.mod_1_r, Z.div_1_r, Z.eqb_refl, Bool.andb_true_r. reflexivity. }
  unfold mask2ptr_ps. rewrite E. destruct (mask =? 0); [reflexivity|]. f_equal. rewrite Z.div_1_r. reflexivity.
Qed.

Lemma movemask16_bound : forall n m a pat, 0 <= movemask16 n m a pat < 2 ^ (2 * Z.of_nat n).
Proof.
  induction n; intros m a pat; [cbn; lia|]. cbn [movemask16]. specialize (IHn m a pat).
  replace (2 * Z.of_nat (S n)) with (2 + 2 * Z.of_nat n) by lia. rewrite Z.pow_add_r by lia. rewrite Z.pow_mul_r in * by lia.
  change (2 ^ 2) with 4 in *. destruct (_ =? _); lia.
Qed.
Lemma movemask16_bit : forall n m a pat j, 0 <= j ->
  Z.testbit (movemask16 n m a pat) j = (j <? 2 * Z.of_nat n) && (half m (a + 2 * (j / 2)) =? pat).
Proof.
  induction n; intros m a pat j Hj.
  - cbn [movemask16]. rewrite Z.testbit_0_l. replace (j <? 2 * Z.of_nat 0) with false by lia. reflexivity.
  - cbn [movemask16]. pose proof (movemask16_bound n m a pat) as B.
    replace (movemask16 n m a pat + (if half m (a + 2 * Z.of_nat n) =? pat then 3 * 4 ^ Z.of_nat n else 0))
      with ((if half m (a + 2 * Z.of_nat n) =? pat then 3 else 0) * 2 ^ (2 * Z.of_nat n) + movemask16 n m a pat).
    2:{ rewrite Z.pow_mul_r by lia. change (2 ^ 2) with 4. destruct (_ =? _); lia. }
    rewrite testbit_split by lia. destruct (j <? 2 * Z.of_nat n) eqn:L.
    + rewrite IHn by lia. replace (j <? 2 * Z.of_nat (S n)) with true by lia. rewrite L. reflexivity.
    + destruct (j <? 2 * Z.of_nat (S n)) eqn:U.
      * replace (j / 2) with (Z.of_nat n) by lia. destruct (half m (a + 2 * Z.of_nat n) =? pat); [|apply Z.testbit_0_l].
        assert (j - 2 * Z.of_nat n = 0 \/ j - 2 * Z.of_nat n = 1) as [-> | ->] by lia; reflexivity.
      * destruct (_ =? _); [|apply Z.testbit_0_l]. apply Z.bits_above_log2; [lia|]. change (Z.log2 3) with 1. lia.
Qed.
Lemma pick_bit : forall w j, w = 4 \/ w = 8 -> 0 <= j -> Z.testbit (pick w) j = (j <? 4 * w) && (j mod 4 =? 2).
Proof.
  intros w j Hw Hj. destruct (j <? 4 * w) eqn:L; cbn [andb].
  - apply Bool.eqb_prop. assert (A : all_below 32 (fun j => Bool.eqb (Z.testbit (pick 8) j) (j mod 4 =? 2)) = true) by (vm_compute; reflexivity).
    assert (A4 : all_below 16 (fun j => Bool.eqb (Z.testbit (pick 4) j) (j mod 4 =? 2)) = true) by (vm_compute; reflexivity).
    destruct Hw as [-> | ->]; [exact (all_below_spec _ _ A4 j ltac:(lia)) | exact (all_below_spec _ _ A j ltac:(lia))].
  - apply Z.bits_above_log2; destruct Hw as [-> | ->]; [vm_compute; discriminate|vm_compute; discriminate| |];
      [change (Z.log2 (pick 4)) with 14 | change (Z.log2 (pick 8)) with 30]; lia.
Qed.

(** a whole step *)
Lemma tag_lane : forall m a j tag, j mod 4 = 2 -> (half m (a + 2 * (j / 2)) =? tag) = (tag_at m (a + 4 * (j / 4)) =? tag).
Proof. intros m a j tag H. unfold tag_at. replace (a + 2 * (j / 2)) with (a + 4 * (j / 4) + 2) by lia. reflexivity. Qed.
Lemma step_int_good : forall w m tag, w = 4 \/ w = 8 -> good_step m tag (Z.to_nat w) (step_int w m tag).
Proof.
  intros w m tag Hw a. cbn [step_int fst]. apply mask2ptr16_first; [lia|]. intros j Hj.
  rewrite Z.land_spec, pick_bit, movemask16_bit by assumption. replace (2 * Z.of_nat (Z.to_nat (2 * w))) with (4 * w) by lia.
  replace (4 * Z.of_nat (Z.to_nat w)) with (4 * w) by lia.
  destruct (j <? 4 * w); [cbn [andb]|reflexivity]. destruct (j mod 4 =? 2) eqn:E; [cbn [andb]|reflexivity].
  apply tag_lane. lia.
Qed.
Lemma short_int_first : forall w m tag begin n, w = 4 \/ w = 8 -> 4 * Z.of_nat n < 4 * w ->
  fst (short_int w m tag begin (begin + 4 * Z.of_nat n)) = first m tag n begin.
Proof.
  intros w m tag begin n Hw Hn. unfold short_int. replace (begin + 4 * Z.of_nat n - begin) with (4 * Z.of_nat n) by lia.
  destruct (4 * Z.of_nat n <? 4) eqn:E4; [replace n with 0%nat by lia; reflexivity|].
  destruct (negb (Z.land (page_test w) begin =? 0)); cbn [fst]; apply mask2ptr16_first; try lia; intros j Hj.
  - rewrite Z.shiftr_spec by lia. rewrite Z.land_spec, pick_bit, movemask16_bit by (assumption || lia).
    replace (2 * Z.of_nat (Z.to_nat (2 * w))) with (4 * w) by lia.
    replace (j + (4 * w - 4 * Z.of_nat n) <? 4 * w) with (j <? 4 * Z.of_nat n) by lia.
    replace ((j + (4 * w - 4 * Z.of_nat n)) mod 4) with (j mod 4) by lia.
    destruct (j <? 4 * Z.of_nat n); [cbn [andb]|reflexivity]. destruct (j mod 4 =? 2) eqn:E; [cbn [andb]|reflexivity].
    rewrite tag_lane by lia. f_equal. f_equal. lia.
  - rewrite Z.land_spec, Z.shiftr_spec, pick_bit, movemask16_bit by (assumption || lia).
    replace (2 * Z.of_nat (Z.to_nat (2 * w))) with (4 * w) by lia.
    replace (j + (4 * w - 4 * Z.of_nat n) <? 4 * w) with (j <? 4 * Z.of_nat n) by lia.
    replace ((j + (4 * w - 4 * Z.of_nat n)) mod 4) with (j mod 4) by lia.
    destruct (j <? 4 * Z.of_nat n) eqn:L; [cbn [andb]|reflexivity]. destruct (j mod 4 =? 2) eqn:E; [cbn [andb]|reflexivity].
    replace (j <? 4 * w) with true by lia. apply tag_lane. lia.
Qed.
Lemma scan_int_first : forall w lg m tag begin n, (w = 4 /\ lg = 4) \/ (w = 8 /\ lg = 5) ->
  fst (scan_int w lg m begin (begin + 4 * Z.of_nat n) tag) = first m tag n begin.
Proof.
  intros w lg m tag begin n H. unfold scan_int. replace (begin + 4 * Z.of_nat n - begin) with (4 * Z.of_nat n) by lia.
  destruct (4 * Z.of_nat n <? 4 * w) eqn:E.
  - apply short_int_first; lia.
  - pose proof (step_int_good w m tag ltac:(lia)) as G.
    pose proof (wide_first m tag (Z.to_nat w) lg (step_int w m tag) ltac:(lia) ltac:(lia)) as W. rewrite Z2Nat.id in W by lia.
    apply W; [|exact G|lia]. destruct H as [[-> ->]|[-> ->]]; reflexivity.
Qed.

(** AVX *)
Lemma f_eq_tags : forall x y, 0 <= x < 65536 -> 0 <= y < 65536 -> f_eq false x y = (x =? y).
Proof.
  intros x y Hx Hy. unfold f_eq, f_flush, f_nan, f_abs. cbn [andb].
  rewrite (Z.mod_small x), (Z.mod_small y) by lia.
  replace (2139095040 <? x) with false by lia. replace (2139095040 <? y) with false by lia. cbn [negb andb].
  destruct (x =? y) eqn:E; [reflexivity|]. cbn [orb]. lia.
Qed.
Lemma low_half : forall m a, bytes_mem m -> Z.land 0xffff (word_at_n 4 m a) = half m a.
Proof.
  intros m a H. rewrite Z.land_comm. change 0xffff with (Z.ones 16). rewrite Z.land_ones by lia.
  cbn [word_at_n]. unfold half. pose proof (H a). pose proof (H (a + 1)). pose proof (H (a + 1 + 1)). pose proof (H (a + 1 + 1 + 1)).
  change (2 ^ 16) with 65536. symmetry. apply (Z.mod_unique_pos _ _ (m (a + 1 + 1) + 256 * (m (a + 1 + 1 + 1) + 256 * 0))); lia.
Qed.
Lemma movemask_ps_bound : forall d n m a pat, 0 <= movemask_ps d n m a pat < 2 ^ Z.of_nat n.
Proof.
  induction n; intros m a pat; [cbn; lia|]. cbn [movemask_ps]. specialize (IHn m a pat).
  replace (Z.of_nat (S n)) with (1 + Z.of_nat n) by lia. rewrite Z.pow_add_r by lia. change (2 ^ 1) with 2. destruct (f_eq _ _ _); lia.
Qed.
Lemma movemask_ps_bit : forall n m a pat j, bytes_mem m -> 0 <= pat < 65536 -> 0 <= j ->
  Z.testbit (movemask_ps false n m (a + 2) pat) j = (j <? Z.of_nat n) && (tag_at m (a + 4 * j) =? pat).
Proof.
  induction n; intros m a pat j Hm Hp Hj.
  - cbn [movemask_ps]. rewrite Z.testbit_0_l. replace (j <? Z.of_nat 0) with false by lia. reflexivity.
  - cbn [movemask_ps]. pose proof (movemask_ps_bound false n m (a + 2) pat) as B. rewrite low_half by assumption.
    assert (Hh : forall x, 0 <= half m x < 65536). { intros x. unfold half. pose proof (Hm x). pose proof (Hm (x + 1)). lia. }
    rewrite f_eq_tags by auto.
    replace (movemask_ps false n m (a + 2) pat + (if pat =? half m (a + 2 + 4 * Z.of_nat n) then 2 ^ Z.of_nat n else 0))
      with ((if pat =? half m (a + 2 + 4 * Z.of_nat n) then 1 else 0) * 2 ^ Z.of_nat n + movemask_ps false n m (a + 2) pat).
    2:{ destruct (_ =? _); lia. }
    rewrite testbit_split by lia. destruct (j <? Z.of_nat n) eqn:L.
    + rewrite IHn by assumption. replace (j <? Z.of_nat (S n)) with true by lia. rewrite L. reflexivity.
    + destruct (j <? Z.of_nat (S n)) eqn:U.
      * replace j with (Z.of_nat n) by lia. unfold tag_at. replace (a + 4 * Z.of_nat n + 2) with (a + 2 + 4 * Z.of_nat n) by lia.
        rewrite (Z.eqb_sym (half _ _)), Z.sub_diag. destruct (_ =? _); reflexivity.
      * destruct (_ =? _); [|apply Z.testbit_0_l]. apply Z.bits_above_log2; [lia|]. change (Z.log2 1) with 0. lia.
Qed.
Lemma step_ps_good : forall m tag, bytes_mem m -> 0 <= tag < 65536 -> good_step m tag 8 (step_ps false m tag).
Proof.
  intros m tag Hm Ht a. cbn [step_ps fst]. apply mask2ptr_ps_first; [lia|]. intros j Hj. apply movemask_ps_bit; assumption.
Qed.
Lemma scan_AVX_first : forall m tag begin n, bytes_mem m -> 0 <= tag < 65536 ->
  fst (scan_AVX false m begin (begin + 4 * Z.of_nat n) tag) = first m tag n begin.
Proof.
  intros m tag begin n Hm Ht. unfold scan_AVX. replace (begin + 4 * Z.of_nat n - begin) with (4 * Z.of_nat n) by lia.
  destruct (4 * Z.of_nat n <? 32) eqn:E.
  - unfold short_ps. replace (begin + 4 * Z.of_nat n - begin) with (4 * Z.of_nat n) by lia.
    destruct (4 * Z.of_nat n <? 4) eqn:E4; [replace n with 0%nat by lia; reflexivity|].
    replace (4 * Z.of_nat n / 4) with (Z.of_nat n) by lia.
    destruct (negb (Z.land 0xfe0 begin =? 0)); cbn [fst]; apply mask2ptr_ps_first; try lia; intros j Hj.
    + rewrite Z.shiftr_spec, movemask_ps_bit by (assumption || lia).
      replace (j + (8 - Z.of_nat n) <? Z.of_nat 8) with (j <? Z.of_nat n) by lia. f_equal. f_equal. f_equal. lia.
    + rewrite Z.land_spec, Z.shiftr_spec, movemask_ps_bit by (assumption || lia). change 255 with (Z.ones 8).
      destruct (j <? Z.of_nat n) eqn:L; [cbn [andb]|].
      * rewrite Z.ones_spec_low by lia. replace (j <? Z.of_nat 8) with true by lia. reflexivity.
      * rewrite Z.ones_spec_high by lia. reflexivity.
  - exact (wide_first m tag 8 5 _ ltac:(lia) ltac:(lia) eq_refl (step_ps_good m tag Hm Ht) begin n ltac:(lia)).
Qed.

(** ** memory read *)
Definition within (lo hi : Z) (t : trace) : Prop := Forall (fun r => lo <= fst r /\ fst r + snd r <= hi) t.
Lemma within_app : forall lo hi a b, within lo hi a -> within lo hi b -> within lo hi (a ++ b).
Proof. intros. apply Forall_app. split; assumption. Qed.

(** a step at [a] reads [len] bytes from [a + d] *)
Definition reads_step (d len : Z) (step : Z -> option Z * trace) : Prop := forall a, snd (step a) = [(a + d, len)].
Lemma run_steps_reads : forall d len step stride, reads_step d len step -> 0 <= stride -> forall n scan lo hi,
  lo <= scan + d -> (forall k, 0 <= k < Z.of_nat n -> scan + stride * k + d + len <= hi) ->
  let '(r, s, t) := run_steps step stride n scan in
  within lo hi t /\ (r = None -> s = scan + stride * Z.of_nat n).
Proof.
  intros d len step stride R Hs. induction n; intros scan lo hi Hlo Hhi.
  - cbn. split; [constructor|intros; lia].
  - cbn [run_steps]. pose proof (R scan) as Q. destruct (step scan) as [[p|] t]; cbn [snd] in Q; subst t.
    + split; [|discriminate]. constructor; [|constructor]. cbn [fst snd]. specialize (Hhi 0 ltac:(lia)). lia.
    + specialize (IHn (scan + stride) lo hi ltac:(lia)).
      destruct (run_steps step stride n (scan + stride)) as [[r s] t'].
      destruct IHn as [A B].
      { intros k Hk. specialize (Hhi (k + 1) ltac:(lia)). lia. }
      split.
      * apply within_app; [|assumption]. constructor; [|constructor]. cbn [fst snd]. specialize (Hhi 0 ltac:(lia)). lia.
      * intros Q. rewrite (B Q). lia.
Qed.
Lemma run_blocks_reads : forall d len x w step, (0 < w)%nat -> reads_step d len step -> d + len <= 4 * Z.of_nat w + x ->
  forall fuel scan n lo, (8 * w <= n)%nat -> (n < fuel * (8 * w))%nat -> lo <= scan + d ->
  let '(r, s, t) := run_blocks fuel step (4 * Z.of_nat w) scan (scan + 4 * Z.of_nat n - 4 * (8 * Z.of_nat w - 1)) in
  within lo (scan + 4 * Z.of_nat n + x) t /\ (r = None -> s = scan + 4 * Z.of_nat (n / (8 * w) * (8 * w))).
Proof.
  intros d len x w step Hw R Hx. induction fuel; intros scan n lo Hn Hf Hlo; [lia|].
  cbn [run_blocks].
  pose proof (run_steps_reads d len step (4 * Z.of_nat w) R ltac:(lia) 8 scan lo (scan + 4 * Z.of_nat n + x) Hlo) as Q.
  destruct (run_steps step (4 * Z.of_nat w) 8 scan) as [[r s] t]. destruct Q as [A B].
  { intros k Hk. assert (4 * Z.of_nat w * k <= 4 * Z.of_nat w * 7) by (apply Z.mul_le_mono_nonneg_l; lia). lia. }
  assert (D : (n / (8 * w) * (8 * w) = 8 * w + (n - 8 * w) / (8 * w) * (8 * w))%nat).
  { replace n with (n - 8 * w + 1 * (8 * w))%nat at 1 by lia. rewrite Nat.div_add by lia. lia. }
  destruct r as [p|]; [split; [assumption|discriminate]|].
  specialize (B eq_refl). subst s. rewrite D. clear D.
  destruct (scan + 4 * Z.of_nat w * Z.of_nat 8 <? scan + 4 * Z.of_nat n - 4 * (8 * Z.of_nat w - 1)) eqn:C.
  - specialize (IHfuel (scan + 4 * Z.of_nat w * Z.of_nat 8) (n - 8 * w)%nat lo ltac:(lia) ltac:(lia) ltac:(lia)).
    replace (scan + 4 * Z.of_nat w * Z.of_nat 8 + 4 * Z.of_nat (n - 8 * w) - 4 * (8 * Z.of_nat w - 1))
      with (scan + 4 * Z.of_nat n - 4 * (8 * Z.of_nat w - 1)) in IHfuel by lia.
    destruct (run_blocks fuel step (4 * Z.of_nat w) (scan + 4 * Z.of_nat w * Z.of_nat 8) (scan + 4 * Z.of_nat n - 4 * (8 * Z.of_nat w - 1))) as [[r s] t'].
    destruct IHfuel as [A' B']. split.
    + apply within_app; [assumption|].
      replace (scan + 4 * Z.of_nat n + x) with (scan + 4 * Z.of_nat w * Z.of_nat 8 + 4 * Z.of_nat (n - 8 * w) + x) by lia. exact A'.
    + intros Q. rewrite (B' Q). lia.
  - rewrite (Nat.div_small (n - 8 * w)) by lia. split; [assumption|]. intros _. lia.
Qed.
Lemma unroll_reads : forall m tag begin n, within begin (begin + 4 * Z.of_nat n) (snd (scan_unroll m begin (begin + 4 * Z.of_nat n) tag)).
Proof.
  intros m tag begin n. unfold scan_unroll. replace ((begin + 4 * Z.of_nat n - begin) / 4) with (Z.of_nat n) by lia.
  replace (Z.of_nat n <? 0) with false by lia.
  assert (R : reads_step 2 2 (step1 m tag)) by (intros a; reflexivity). destruct (Z.of_nat n <=? 8) eqn:E.
  - rewrite Nat2Z.id.
    pose proof (run_steps_reads 2 2 _ 4 R ltac:(lia) n begin begin (begin + 4 * Z.of_nat n) ltac:(lia) ltac:(intros; lia)) as Q.
    destruct (run_steps (step1 m tag) 4 n begin) as [[r s] t]. exact (proj1 Q).
  - pose proof (run_blocks_reads 2 2 0 1 _ ltac:(lia) R ltac:(lia) (Z.to_nat (Z.of_nat n)) begin n begin ltac:(lia) ltac:(lia) ltac:(lia)) as Q.
    change (4 * Z.of_nat 1) with 4 in Q. replace (4 * (8 * Z.of_nat 1 - 1)) with (7 * 4) in Q by lia. rewrite Z.add_0_r in Q.
    change (8 * 1)%nat with 8%nat in Q.
    destruct (run_blocks (Z.to_nat (Z.of_nat n)) (step1 m tag) 4 begin (begin + 4 * Z.of_nat n - 7 * 4)) as [[r s] t].
    destruct Q as [A B]. destruct r as [p|]; [exact A|]. rewrite (B eq_refl).
    replace (Z.to_nat (Z.land (Z.of_nat n) 7)) with (n mod 8)%nat.
    2:{ change 7 with (Z.ones 3). rewrite Z.land_ones by lia. lia. }
    pose proof (Nat.div_mod n 8 ltac:(lia)) as DM.
    pose proof (run_steps_reads 2 2 _ 4 R ltac:(lia) (n mod 8) (begin + 4 * Z.of_nat (n / 8 * 8)) begin (begin + 4 * Z.of_nat n) ltac:(lia) ltac:(intros; lia)) as Q.
    destruct (run_steps (step1 m tag) 4 (n mod 8) (begin + 4 * Z.of_nat (n / 8 * 8))) as [[r' s'] t'].
    cbn [snd]. apply within_app; [assumption|exact (proj1 Q)].
Qed.
Lemma referential_reads : forall m tag fuel scan e lo, lo <= scan -> (e - scan) mod 4 = 0 ->
  within lo e (snd (referential_loop fuel m tag scan e)).
Proof.
  induction fuel; intros scan e lo H M; cbn [referential_loop]; [constructor|].
  destruct (scan <? e) eqn:E; [|constructor]. destruct (_ =? _).
  - constructor; [|constructor]. cbn [fst snd]. lia.
  - specialize (IHfuel (scan + 4) e lo ltac:(lia) ltac:(lia)). destruct (referential_loop fuel m tag (scan + 4) e).
    constructor; [cbn [fst snd]; lia|exact IHfuel].
Qed.
Lemma wide_tail_reads : forall d len x w step, (0 < w)%nat -> reads_step d len step -> d + len <= 4 * Z.of_nat w + x -> 0 <= d ->
  forall begin n j c, (w <= n)%nat -> (j + (c - 1) * w <= n)%nat ->
  within (begin + d) (begin + 4 * Z.of_nat n + x)
    (snd (wide_tail step (Z.of_nat w) (begin + 4 * Z.of_nat n) (Z.of_nat c) (begin + 4 * Z.of_nat j))).
Proof.
  intros d len x w step Hw R Hx Hd begin n j c Hn L. unfold wide_tail. destruct (Z.of_nat c =? 0) eqn:E; [constructor|].
  replace (Z.to_nat (Z.of_nat c - 1)) with (c - 1)%nat by lia.
  pose proof (run_steps_reads d len step (4 * Z.of_nat w) R ltac:(lia) (c - 1) (begin + 4 * Z.of_nat j) (begin + d) (begin + 4 * Z.of_nat n + x) ltac:(lia)) as Q.
  destruct (run_steps step (4 * Z.of_nat w) (c - 1) (begin + 4 * Z.of_nat j)) as [[r s] t]. destruct Q as [A B].
  { intros k Hk. assert (4 * Z.of_nat w * (k + 1) <= 4 * Z.of_nat w * Z.of_nat (c - 1)) by (apply Z.mul_le_mono_nonneg_l; lia). lia. }
  destruct r as [p|]; [exact A|]. pose proof (R (begin + 4 * Z.of_nat n - 4 * Z.of_nat w)) as Q.
  destruct (step (begin + 4 * Z.of_nat n - 4 * Z.of_nat w)) as [r t']. cbn [snd] in *. subst t'.
  apply within_app; [assumption|]. constructor; [|constructor]. cbn [fst snd]. lia.
Qed.
Lemma wide_reads : forall d len x w lg step, (0 < w)%nat -> 0 <= lg -> 4 * Z.of_nat w = 2 ^ lg -> reads_step d len step ->
  d + len <= 4 * Z.of_nat w + x -> 0 <= d ->
  forall begin n, (w <= n)%nat ->
  within (begin + d) (begin + 4 * Z.of_nat n + x) (snd (wide_scan step (Z.of_nat w) lg begin (begin + 4 * Z.of_nat n))).
Proof.
  intros d len x w lg step Hw Hlg Hp R Hx Hd begin n Hn. unfold wide_scan.
  replace (begin + 4 * Z.of_nat n - begin) with (4 * Z.of_nat n) by lia.
  rewrite !Z.shiftr_div_pow2 by lia. rewrite <- Hp.
  assert (Ch : forall k, (4 * Z.of_nat k + (4 * Z.of_nat w - 1)) / (4 * Z.of_nat w) = Z.of_nat ((k + (w - 1)) / w)).
  { intros k. rewrite Nat2Z.inj_div. symmetry.
    apply (Z.div_unique_pos _ _ _ (4 * (Z.of_nat (k + (w - 1)) mod Z.of_nat w) + 3)).
    - pose proof (Z.mod_pos_bound (Z.of_nat (k + (w - 1))) (Z.of_nat w) ltac:(lia)). lia.
    - pose proof (Z.div_mod (Z.of_nat (k + (w - 1))) (Z.of_nat w) ltac:(lia)). lia. }
  assert (Cl : forall k, ((k + (w - 1)) / w * w <= k + (w - 1) /\ k <= (k + (w - 1)) / w * w)%nat).
  { intros k. pose proof (Nat.div_mod (k + (w - 1)) w ltac:(lia)). pose proof (Nat.mod_upper_bound (k + (w - 1)) w ltac:(lia)). lia. }
  rewrite Ch. destruct (Z.of_nat ((n + (w - 1)) / w) <=? 8) eqn:E.
  - pose proof (wide_tail_reads d len x w step Hw R Hx Hd begin n 0 ((n + (w - 1)) / w) Hn) as T.
    destruct (Cl n). replace (begin + 4 * Z.of_nat 0) with begin in T by lia. apply T.
    destruct ((n + (w - 1)) / w)%nat; lia.
  - destruct (Cl n) as [C1 C2]. set (c := ((n + (w - 1)) / w)%nat) in *.
    assert (N8 : (8 * w <= n)%nat).
    { assert (9 <= c)%nat by lia. assert (9 * w <= c * w)%nat by (apply Nat.mul_le_mono_r; lia). lia. }
    assert (Nf : (n < c * (8 * w))%nat). { replace (c * (8 * w))%nat with (8 * (c * w))%nat by lia. clear - C2 Hw Hn. lia. }
    pose proof (run_blocks_reads d len x w step Hw R Hx (Z.to_nat (Z.of_nat c)) begin n (begin + d) N8 ltac:(rewrite Nat2Z.id; exact Nf) ltac:(lia)) as Q.
    destruct (run_blocks (Z.to_nat (Z.of_nat c)) step (4 * Z.of_nat w) begin (begin + 4 * Z.of_nat n - 4 * (8 * Z.of_nat w - 1))) as [[r s] t].
    destruct Q as [A B]. set (j := (n / (8 * w) * (8 * w))%nat) in *.
    pose proof (Nat.div_mod n (8 * w) ltac:(lia)) as DM.
    assert (J : (n = j + n mod (8 * w))%nat) by (unfold j; lia).
    destruct r as [p|]; [exact A|]. specialize (B eq_refl). subst s.
    assert (La : Z.land (4 * Z.of_nat n) (32 * Z.of_nat w - 1) = 4 * Z.of_nat (n mod (8 * w))).
    { replace (32 * Z.of_nat w - 1) with (Z.ones (lg + 3)).
      2:{ rewrite Z.ones_equiv, Z.pow_add_r, <- Hp by lia. lia. }
      rewrite Z.land_ones by lia. rewrite Z.pow_add_r, <- Hp by lia.
      rewrite Nat2Z.inj_mod. replace (4 * Z.of_nat w * 2 ^ 3) with (4 * Z.of_nat (8 * w)) by lia.
      rewrite Z.mul_mod_distr_l by lia. reflexivity. }
    rewrite La, Ch. set (k := (n mod (8 * w))%nat) in *. destruct (Cl k) as [K1 K2]. set (c' := ((k + (w - 1)) / w)%nat) in *.
    pose proof (wide_tail_reads d len x w step Hw R Hx Hd begin n j c' Hn) as T.
    destruct (wide_tail step (Z.of_nat w) (begin + 4 * Z.of_nat n) (Z.of_nat c') (begin + 4 * Z.of_nat j)) as [r' t'].
    cbn [snd] in *. apply within_app; [exact A|]. apply T. clear - K1 J Hw Hn. destruct c'; lia.
Qed.

(** the bytes read in the short case are in the page of [begin] or in the index *)
Lemma page_land : forall k x, 0 <= k <= 12 -> Z.land (4096 - 2 ^ k) x = (x mod 4096) / 2 ^ k * 2 ^ k.
Proof.
  intros k x Hk. apply Z.bits_inj'. intros i Hi. rewrite Z.land_spec, <- Z.shiftl_mul_pow2, Z.shiftl_spec by lia.
  replace (4096 - 2 ^ k) with (Z.shiftl (Z.ones (12 - k)) k).
  2:{ rewrite Z.shiftl_mul_pow2, Z.ones_equiv by lia. change 4096 with (2 ^ 12). replace 12 with (12 - k + k) at 2 by lia.
      rewrite Z.pow_add_r by lia. lia. }
  rewrite Z.shiftl_spec by lia. destruct (Z.lt_ge_cases i k) as [L|G].
  - rewrite !(Z.testbit_neg_r _ (i - k)) by lia. reflexivity.
  - rewrite <- Z.shiftr_div_pow2, Z.shiftr_spec by lia. replace (i - k + k) with i by lia.
    change 4096 with (2 ^ 12). destruct (Z.lt_ge_cases i 12) as [L'|G'].
    + rewrite Z.ones_spec_low by lia. rewrite Z.mod_pow2_bits_low by lia. reflexivity.
    + rewrite Z.ones_spec_high by lia. rewrite Z.mod_pow2_bits_high by lia. reflexivity.
Qed.

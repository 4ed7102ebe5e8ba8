(** * ValuesProofs *)
From Verif Require Import Base Hippeus HippeusProofs Values.
From Coq Require Import ZifyBool ZifyNat.
Ltac Zify.zify_post_hook ::= Z.div_mod_to_equations.

(** ** Time *)
Lemma frac_exact v f : 0 < f -> 0 <= v < f -> f <= 2 ^ 32 -> units2fractional v f = v * 2 ^ 32 / f /\ 0 <= v * 2 ^ 32 / f < 2 ^ 32.
Proof.
  intros Hf Hv Hf2. unfold units2fractional, u64. rewrite Z.shiftl_mul_pow2, Z.mod_small by lia. split; [reflexivity|].
  split; [apply Z.div_pos; lia|apply Z.div_lt_upper_bound; [lia|]]. apply Z.mul_lt_mono_pos_r; lia.
Qed.
Lemma scale_in_value v f : 0 < f <= 2 ^ 32 -> 0 <= v -> v / f < 2 ^ 32 ->
  scale_in v f = (v / f) * 2 ^ 32 + (v mod f) * 2 ^ 32 / f /\ 0 <= (v mod f) * 2 ^ 32 / f < 2 ^ 32.
Proof.
  intros Hf Hv Hr. destruct (frac_exact (v mod f) f) as [E B]; [lia|apply Z.mod_pos_bound; lia|lia|].
  split; [|exact B]. unfold scale_in. rewrite E. unfold u64.
  assert (0 <= v / f) by (apply Z.div_pos; lia).
  rewrite (shl_small (v / f) 32 64) by lia. apply lor_pack; lia.
Qed.
Lemma back_frac v f : 0 < f <= 2 ^ 32 -> 0 <= v < f ->
  v - 1 <= fractional2units (v * 2 ^ 32 / f) f <= v.
Proof.
  intros Hf Hv. unfold fractional2units, u64.
  set (q := v * 2 ^ 32 / f). assert (Q1 : q * f <= v * 2 ^ 32) by (unfold q; rewrite Z.mul_comm; apply Z.mul_div_le; lia).
  assert (Q2 : v * 2 ^ 32 < (q + 1) * f).
  { unfold q. pose proof (Z.mul_succ_div_gt (v * 2 ^ 32) f ltac:(lia)). lia. }
  assert (Q0 : 0 <= q) by (apply Z.div_pos; lia).
  assert (Q3 : 0 <= q * f) by (apply Z.mul_nonneg_nonneg; lia).
  rewrite Z.mod_small, Z.shiftr_div_pow2 by lia. split.
  - apply Z.div_le_lower_bound; lia.
  - apply Z.div_le_upper_bound; lia.
Qed.
Lemma frac_mono v w f : 0 < f <= 2 ^ 32 -> v < w -> v * 2 ^ 32 / f < w * 2 ^ 32 / f.
Proof.
  intros Hf H. apply Z.lt_le_trans with (v * 2 ^ 32 / f + 1); [lia|].
  replace (v * 2 ^ 32 / f + 1) with ((v * 2 ^ 32 + 1 * f) / f) by (apply Z.div_add; lia).
  apply Z.div_le_mono; lia.
Qed.

(** ** Lexicographic order *)
Inductive lexlt : list Z -> list Z -> Prop :=
| lx_nil b r : lexlt [] (b :: r)
| lx_head a b l r : a < b -> lexlt (a :: l) (b :: r)
| lx_tail a l r : lexlt l r -> lexlt (a :: l) (a :: r).
Lemma lexlt_trans l r t : lexlt l r -> lexlt r t -> lexlt l t.
Proof.
  intros H. revert t. induction H as [b r|a b l r L|a l r H IH]; intros t Ht; inversion Ht; subst; try (apply lx_nil); try (apply lx_head; lia).
  apply lx_tail. apply IH. assumption.
Qed.
Lemma lexlt_irrefl l : ~ lexlt l l.
Proof. induction l as [|a l IH]; intros H; inversion H; subst; [lia|auto]. Qed.
Lemma lexlt_total l : forall r, lexlt l r \/ l = r \/ lexlt r l.
Proof.
  induction l as [|a l IH]; intros [|b r]; [auto|left; constructor|right; right; constructor|].
  destruct (Z.lt_total a b) as [L|[->|G]]; [left; constructor; exact L| |right; right; constructor; exact G].
  destruct (IH r) as [H|[->|H]]; [left; apply lx_tail; exact H|auto|right; right; apply lx_tail; exact H].
Qed.
(** what the C standard says of memcmp on sequences of one length *)
Definition conforming (mc : list Z -> list Z -> Z) : Prop := forall l r, length l = length r ->
  (mc l r < 0 <-> lexlt l r) /\ (mc l r = 0 <-> l = r) /\ (0 < mc l r <-> lexlt r l).

Lemma lexlt_app_eq p l r : lexlt (p ++ l) (p ++ r) <-> lexlt l r.
Proof.
  induction p as [|a p IH]; [reflexivity|]. cbn [app]. rewrite <- IH. split; intros H; [inversion H; subst; [lia|assumption]|apply lx_tail; exact H].
Qed.
Lemma lexlt_app_lt p q l r : length p = length q -> lexlt p q -> lexlt (p ++ l) (q ++ r).
Proof.
  intros E H. revert E. induction H as [b q|a b p q L|a p q H IH]; intros E; [discriminate E|constructor; exact L|].
  cbn [app]. apply lx_tail. apply IH. injection E as E. exact E.
Qed.
(** ** binary comparison *)
Lemma cmp_binary_spec mc l r : conforming mc ->
  (fptu_cmp_binary mc l r = Llt <-> lexlt l r) /\ (fptu_cmp_binary mc l r = Leq <-> l = r) /\ (fptu_cmp_binary mc l r = Lgt <-> lexlt r l).
Proof.
  intros C.
  assert (One : (fptu_cmp_binary mc l r = Llt /\ lexlt l r) \/ (fptu_cmp_binary mc l r = Leq /\ l = r) \/ (fptu_cmp_binary mc l r = Lgt /\ lexlt r l)).
  { unfold fptu_cmp_binary. set (k := Nat.min (length l) (length r)).
    assert (Ek : length (firstn k l) = length (firstn k r)) by (rewrite !firstn_length; unfold k; lia).
    destruct (C _ _ Ek) as (C1 & C2 & C3).
    pose proof (firstn_skipn k l) as Sl. pose proof (firstn_skipn k r) as Sr.
    assert (Ll : length (skipn k l) = (length l - k)%nat) by apply skipn_length.
    assert (Lr : length (skipn k r) = (length r - k)%nat) by apply skipn_length.
    destruct (mc (firstn k l) (firstn k r) =? 0) eqn:E.
    - assert (E2 : firstn k l = firstn k r) by (apply C2; lia).
      unfold cmp2int. destruct (Z.of_nat (length r) >? Z.of_nat (length l)) eqn:E3.
      + left. split; [reflexivity|]. rewrite <- Sl, <- Sr, E2. apply lexlt_app_eq.
        destruct (skipn k l); [|cbn [length] in Ll; unfold k in *; lia]. destruct (skipn k r); [cbn [length] in Lr; unfold k in *; lia|]. constructor.
      + destruct (Z.of_nat (length l) >? Z.of_nat (length r)) eqn:E4.
        * right; right. split; [reflexivity|]. rewrite <- Sl, <- Sr, E2. apply lexlt_app_eq.
          destruct (skipn k r); [|cbn [length] in Lr; unfold k in *; lia]. destruct (skipn k l); [cbn [length] in Ll; unfold k in *; lia|]. constructor.
        * right; left. split; [reflexivity|]. rewrite <- Sl, <- Sr, E2. f_equal.
          destruct (skipn k r); [|cbn [length] in Lr; unfold k in *; lia]. destruct (skipn k l); [reflexivity|cbn [length] in Ll; unfold k in *; lia].
    - unfold diff2lge, cmp2lge. rewrite E. destruct (mc (firstn k l) (firstn k r) <? 0) eqn:E5.
      + left. split; [reflexivity|]. rewrite <- Sl, <- Sr. apply lexlt_app_lt; [exact Ek|apply C1; lia].
      + right; right. split; [reflexivity|]. rewrite <- Sl, <- Sr. apply lexlt_app_lt; [symmetry; exact Ek|apply C3; lia]. }
  pose proof (lexlt_irrefl l). pose proof (lexlt_irrefl r).
  assert (X : lexlt l r -> lexlt r l -> False) by (intros A B; exact (lexlt_irrefl l (lexlt_trans _ _ _ A B))).
  destruct One as [[E H']|[[E H']|[E H']]]; rewrite E; repeat split; intros; try congruence; try tauto; try (subst; tauto).
Qed.

(** ** String views *)
Lemma bytes_at_length m : forall n a, length (bytes_at m a n) = n.
Proof. induction n as [|n IH]; intros a; cbn; [reflexivity|rewrite IH; reflexivity]. Qed.
Lemma bytes_at_app m : forall n k a, bytes_at m a (n + k) = bytes_at m a n ++ bytes_at m (a + Z.of_nat n) k.
Proof.
  induction n as [|n IH]; intros k a; [cbn; f_equal; lia|]. cbn [Nat.add bytes_at app]. rewrite IH. do 2 f_equal.
  f_equal. lia.
Qed.

(** ** Word compare *)
Fixpoint be (l : list Z) : Z := match l with [] => 0 | b :: l => b * 256 ^ Z.of_nat (length l) + be l end.
Definition allb (l : list Z) : Prop := forall x, In x l -> 0 <= x < 256.
Lemma be_range l : allb l -> 0 <= be l < 256 ^ Z.of_nat (length l).
Proof.
  induction l as [|b l IH]; intros H; [cbn; lia|]. cbn [be length]. rewrite Nat2Z.inj_succ, Z.pow_succ_r by lia.
  pose proof (IH (fun x I => H x (or_intror I))). pose proof (H b (or_introl eq_refl)).
  assert (b * 256 ^ Z.of_nat (length l) <= 255 * 256 ^ Z.of_nat (length l)) by (apply Z.mul_le_mono_nonneg_r; lia).
  assert (0 <= b * 256 ^ Z.of_nat (length l)) by (apply Z.mul_nonneg_nonneg; lia). lia.
Qed.
Lemma be_lt l : forall r, length l = length r -> allb l -> allb r -> (be l < be r <-> lexlt l r).
Proof.
  induction l as [|a l IH]; intros [|b r] E Hl Hr; try discriminate E.
  - split; [cbn; lia|intros H; inversion H].
  - injection E as E. cbn [be]. rewrite <- E.
    assert (Rl : 0 <= be l < 256 ^ Z.of_nat (length l)) by (apply be_range; intros x I; apply Hl; right; exact I).
    assert (Rr : 0 <= be r < 256 ^ Z.of_nat (length l)) by (rewrite E; apply be_range; intros x I; apply Hr; right; exact I).
    specialize (IH r E (fun x I => Hl x (or_intror I)) (fun x I => Hr x (or_intror I))).
    destruct (Z.lt_total a b) as [L|[->|G]].
    + split; [intros _; constructor; exact L|intros _].
      assert ((a + 1) * 256 ^ Z.of_nat (length l) <= b * 256 ^ Z.of_nat (length l)) by (apply Z.mul_le_mono_nonneg_r; lia). lia.
    + split; [intros H; apply lx_tail; apply IH; lia|intros H; inversion H; subst; [lia|]; match goal with Q : lexlt l r |- _ => apply IH in Q; lia end].
    + split; [|intros H; inversion H; subst; lia]. intros H. exfalso.
      assert ((b + 1) * 256 ^ Z.of_nat (length l) <= a * 256 ^ Z.of_nat (length l)) by (apply Z.mul_le_mono_nonneg_r; lia). lia.
Qed.
Lemma bytes_allb m a n : bytes_mem m -> allb (bytes_at m a n).
Proof. intros H. revert a. induction n as [|n IH]; intros a x I; [destruct I|]. destruct I as [<-|I]; [apply H|exact (IH _ x I)]. Qed.
Lemma bswap_word k : forall m a, bytes_mem m -> bswap_n k (word_at_n k m a) = be (bytes_at m a k).
Proof.
  induction k as [|k IH]; intros m a H; [reflexivity|]. cbn [word_at_n bswap_n bytes_at be]. rewrite bytes_at_length.
  pose proof (H a). replace ((m a + 256 * word_at_n k m (a + 1)) mod 256) with (m a) by lia.
  replace ((m a + 256 * word_at_n k m (a + 1)) / 256) with (word_at_n k m (a + 1)) by lia. rewrite IH by exact H. reflexivity.
Qed.
Lemma word_eq k : forall m a b, bytes_mem m -> (word_at_n k m a = word_at_n k m b <-> bytes_at m a k = bytes_at m b k).
Proof.
  induction k as [|k IH]; intros m a b H; [split; reflexivity|]. cbn [word_at_n bytes_at].
  pose proof (H a). pose proof (H b). specialize (IH m (a + 1) (b + 1) H). split.
  - intros E. assert (E1 : m a = m b) by lia. assert (E2 : word_at_n k m (a + 1) = word_at_n k m (b + 1)) by lia.
    rewrite E1. f_equal. apply IH. exact E2.
  - intros E. injection E as E1 E2. apply IH in E2. lia.
Qed.
(** the three-way outcome [r] describes the order of two sequences *)
Definition says (r : Z) (l t : list Z) : Prop := (r < 0 /\ lexlt l t) \/ (r = 0 /\ l = t) \/ (0 < r /\ lexlt t l).
Lemma says_iff r l t : says r l t -> (r < 0 <-> lexlt l t) /\ (r = 0 <-> l = t) /\ (0 < r <-> lexlt t l).
Proof.
  pose proof (lexlt_irrefl l). pose proof (lexlt_irrefl t).
  assert (X : lexlt l t -> lexlt t l -> False) by (intros A B; exact (lexlt_irrefl l (lexlt_trans _ _ _ A B))).
  intros [[E S]|[[E S]|[E S]]]; repeat split; intros; try lia; try tauto; try (subst; tauto).
Qed.
Lemma word_step_spec k m a b : bytes_mem m ->
  match word_step k m a b with
  | Some r => says r (bytes_at m a k) (bytes_at m b k) /\ bytes_at m a k <> bytes_at m b k
  | None => bytes_at m a k = bytes_at m b k
  end.
Proof.
  intros H. unfold word_step. destruct (word_at_n k m a =? word_at_n k m b) eqn:E.
  - apply word_eq; [exact H|lia].
  - assert (N : bytes_at m a k <> bytes_at m b k) by (intros Q; apply word_eq in Q; [lia|exact H]).
    split; [|exact N]. rewrite !bswap_word by exact H.
    assert (L : length (bytes_at m a k) = length (bytes_at m b k)) by (rewrite !bytes_at_length; reflexivity).
    destruct (be (bytes_at m a k) >? be (bytes_at m b k)) eqn:E2.
    + right; right. split; [lia|]. apply be_lt; auto using bytes_allb. lia.
    + left. split; [lia|]. destruct (lexlt_total (bytes_at m a k) (bytes_at m b k)) as [S|[S|S]]; [exact S|contradiction|].
      apply be_lt in S; auto using bytes_allb. lia.
Qed.
Lemma says_prefix r p q l t : length p = length q -> p <> q -> says r p q -> says r (p ++ l) (q ++ t).
Proof.
  intros L N [[E S]|[[E S]|[E S]]]; [left; split; [exact E|apply lexlt_app_lt; assumption]|contradiction|].
  right; right. split; [exact E|apply lexlt_app_lt; [symmetry; exact L|exact S]].
Qed.
Lemma says_same r p l t : says r l t -> says r (p ++ l) (p ++ t).
Proof. intros [[E S]|[[E S]|[E S]]]; [left|right; left|right; right]; (split; [exact E|]); rewrite ?lexlt_app_eq; congruence || assumption. Qed.
Definition bts (m : bmem) (a n : Z) : list Z := bytes_at m a (Z.to_nat n).
Lemma bts_split m a n k : 0 <= k <= n -> bts m a n = bts m a k ++ bts m (a + k) (n - k).
Proof.
  intros H. unfold bts. replace (Z.to_nat n) with (Z.to_nat k + Z.to_nat (n - k))%nat by lia. rewrite bytes_at_app. do 2 f_equal. lia.
Qed.
(** one word of the two sequences *)
Lemma step_says k m a b n r : bytes_mem m -> (Z.of_nat k <= n) ->
  match word_step k m a b with
  | Some x => r = x
  | None => says r (bts m (a + Z.of_nat k) (n - Z.of_nat k)) (bts m (b + Z.of_nat k) (n - Z.of_nat k))
  end -> says r (bts m a n) (bts m b n).
Proof.
  intros H Hk. pose proof (word_step_spec k m a b H) as W.
  rewrite (bts_split m a n (Z.of_nat k)), (bts_split m b n (Z.of_nat k)) by lia.
  unfold bts at 3 5. rewrite Nat2Z.id.
  destruct (word_step k m a b) as [x|].
  - intros ->. destruct W as [W N]. apply says_prefix; auto. rewrite !bytes_at_length. reflexivity.
  - intros S. rewrite W. apply says_same. exact S.
Qed.
Lemma says_nil a b m r : r = 0 -> says r (bts m a 0) (bts m b 0).
Proof. intros ->. right. left. split; reflexivity. Qed.
Lemma says_one a b m r : r = m a - m b -> says r (bts m a 1) (bts m b 1).
Proof.
  intros ->. change (bts m a 1) with [m a]. change (bts m b 1) with [m b].
  destruct (Z.lt_total (m a) (m b)) as [L|[E|G]]; [left; split; [lia|constructor; exact L]|right; left; split; [lia|congruence]|right; right; split; [lia|constructor; exact G]].
Qed.
Ltac eight n := assert (n = 0 \/ n = 1 \/ n = 2 \/ n = 3 \/ n = 4 \/ n = 5 \/ n = 6 \/ n = 7) as Q by lia;
  repeat destruct Q as [Q|Q]; subst n; reflexivity.
Lemma tail_spec m s1 s2 n : bytes_mem m -> 0 <= n < 8 -> says (e2k_tail m s1 s2 n) (bts m s1 n) (bts m s2 n).
Proof.
  intros H Hn. unfold e2k_tail.
  assert (Last : forall q s1 s2, q = n mod 2 -> says (if Z.testbit n 0 then m s1 - m s2 else 0) (bts m s1 q) (bts m s2 q)).
  { intros q a b ->. assert (C : Z.testbit n 0 = (n mod 2 =? 1)) by (eight n).
    rewrite C. destruct (n mod 2 =? 1) eqn:E; [replace (n mod 2) with 1 by lia; apply says_one; reflexivity|replace (n mod 2) with 0 by lia; apply says_nil; reflexivity]. }
  assert (Two : forall q s1 s2, q = n mod 4 -> says (if Z.testbit n 1 then match word_step 2 m s1 s2 with Some r => r | None => if Z.testbit n 0 then m (s1 + 2) - m (s2 + 2) else 0 end
                   else if Z.testbit n 0 then m s1 - m s2 else 0) (bts m s1 q) (bts m s2 q)).
  { intros q a b ->. assert (C : Z.testbit n 1 = (n mod 4 >=? 2)) by (eight n).
    rewrite C. destruct (n mod 4 >=? 2) eqn:E; [|apply Last; lia].
    apply (step_says 2); [exact H|lia|]. destruct (word_step 2 m a b); [reflexivity|]. apply Last. lia. }
  assert (C : Z.testbit n 2 = (n >=? 4)) by (eight n).
  rewrite C. destruct (n >=? 4) eqn:E; [|apply Two; lia].
  apply (step_says 4); [exact H|lia|]. destruct (word_step 4 m s1 s2); [reflexivity|]. apply Two. lia.
Qed.
Lemma words_spec m : bytes_mem m -> forall fuel s1 s2 n, fuel = Z.to_nat (n / 8) -> 0 <= n ->
  match e2k_words fuel m s1 s2 n with
  | inl q => says q (bts m s1 n) (bts m s2 n)
  | inr (a, b, k) => 0 <= k < 8 /\ (forall r, says r (bts m a k) (bts m b k) -> says r (bts m s1 n) (bts m s2 n))
  end.
Proof.
  intros H. induction fuel as [|fuel IH]; intros s1 s2 n Hf Hn; cbn [e2k_words].
  - split; [lia|]. auto.
  - replace (n >=? 8) with true by lia. pose proof (step_says 8 m s1 s2 n) as SS. change (Z.of_nat 8) with 8 in SS.
    destruct (word_step 8 m s1 s2) as [q|].
    + apply SS; [exact H|lia|reflexivity].
    + specialize (IH (s1 + 8) (s2 + 8) (n - 8) ltac:(lia) ltac:(lia)).
      destruct (e2k_words fuel m (s1 + 8) (s2 + 8) (n - 8)) as [q|[[a b] k]].
      * apply SS; [exact H|lia|exact IH].
      * destruct IH as [I1 I2]. split; [exact I1|]. intros r Hr. apply SS; [exact H|lia|]. apply I2. exact Hr.
Qed.
Lemma head_spec m s1 s2 n : bytes_mem m -> 0 <= n ->
  match e2k_head m s1 s2 n with
  | inl q => says q (bts m s1 n) (bts m s2 n)
  | inr (a, b, k) => 0 <= k /\ (forall r, says r (bts m a k) (bts m b k) -> says r (bts m s1 n) (bts m s2 n))
  end.
Proof.
  intros H Hn. unfold e2k_head. destruct (_ && _) eqn:G; [|split; [exact Hn|auto]].
  assert (G1 : n > 42) by lia. clear G.
  set (P := fun (x : Z + (Z * Z * Z)) s1 s2 n => match x with
    | inl q => says q (bts m s1 n) (bts m s2 n)
    | inr (a, b, k) => 0 <= k /\ (forall r, says r (bts m a k) (bts m b k) -> says r (bts m s1 n) (bts m s2 n)) end).
  assert (Four : forall s1 s2 n, 4 <= n -> P (if negb (Z.land s1 4 =? 0)
                        then match word_step 4 m s1 s2 with Some r => inl r | None => inr (s1 + 4, s2 + 4, n - 4) end
                        else inr (s1, s2, n)) s1 s2 n).
  { intros a b k Hk. destruct (negb _); [|split; [lia|auto]].
    pose proof (step_says 4 m a b k) as SS. change (Z.of_nat 4) with 4 in SS.
    destruct (word_step 4 m a b) as [q|]; cbn [P]; [apply SS; auto|]. split; [lia|]. intros r Hr. apply SS; auto. }
  assert (Two : forall s1 s2 n, 6 <= n -> P (if negb (Z.land s1 2 =? 0)
                       then match word_step 2 m s1 s2 with Some r => inl r | None =>
                         (if negb (Z.land (s1 + 2) 4 =? 0)
                          then match word_step 4 m (s1 + 2) (s2 + 2) with Some r => inl r | None => inr (s1 + 2 + 4, s2 + 2 + 4, n - 2 - 4) end
                          else inr (s1 + 2, s2 + 2, n - 2)) end
                       else (if negb (Z.land s1 4 =? 0)
                        then match word_step 4 m s1 s2 with Some r => inl r | None => inr (s1 + 4, s2 + 4, n - 4) end
                        else inr (s1, s2, n))) s1 s2 n).
  { intros a b k Hk. destruct (negb (Z.land a 2 =? 0)); [|apply Four; lia].
    pose proof (step_says 2 m a b k) as SS. change (Z.of_nat 2) with 2 in SS.
    destruct (word_step 2 m a b) as [q|]; [cbn [P]; apply SS; auto; lia|].
    specialize (Four (a + 2) (b + 2) (k - 2) ltac:(lia)). unfold P in *.
    match goal with |- match ?X with _ => _ end => destruct X as [q|[[a' b'] k']] end.
    - apply SS; auto. lia.
    - destruct Four as [F1 F2]. split; [exact F1|]. intros r Hr. apply SS; auto. lia. }
  destruct (negb (Z.land s1 1 =? 0)).
  - destruct (m s1 - m s2 =? 0) eqn:E.
    + specialize (Two (s1 + 1) (s2 + 1) (n - 1) ltac:(lia)). unfold P in *.
      assert (S1 : forall r, says r (bts m (s1 + 1) (n - 1)) (bts m (s2 + 1) (n - 1)) -> says r (bts m s1 n) (bts m s2 n)).
      { intros r Hr. rewrite (bts_split m s1 n 1), (bts_split m s2 n 1) by lia.
        change (bts m s1 1) with [m s1]. change (bts m s2 1) with [m s2]. replace (m s1) with (m s2) by lia. apply says_same. exact Hr. }
      match goal with |- match ?X with _ => _ end => destruct X as [q|[[a' b'] k']] end.
      * apply S1. exact Two.
      * destruct Two as [T1 T2]. split; [exact T1|]. intros r Hr. apply S1. apply T2. exact Hr.
    + rewrite (bts_split m s1 n 1), (bts_split m s2 n 1) by lia. apply says_prefix; [reflexivity| |apply says_one; reflexivity].
      change (bts m s1 1) with [m s1]. change (bts m s2 1) with [m s2]. intros Q. injection Q as Q. lia.
  - apply Two. lia.
Qed.
Lemma e2k_memcmp_says m s1 s2 n : bytes_mem m -> 0 <= n -> says (e2k_memcmp m s1 s2 n) (bts m s1 n) (bts m s2 n).
Proof.
  intros H Hn. unfold e2k_memcmp. pose proof (head_spec m s1 s2 n H Hn) as Hd.
  destruct (e2k_head m s1 s2 n) as [q|[[a b] k]]; [exact Hd|]. destruct Hd as [K1 K2].
  pose proof (words_spec m H (Z.to_nat (k / 8)) a b k eq_refl K1) as W.
  destruct (e2k_words (Z.to_nat (k / 8)) m a b k) as [q|[[a' b'] k']]; [apply K2; exact W|].
  destruct W as [W1 W2]. apply K2, W2. apply tail_spec; auto.
Qed.

(** ** C strings *)
(** the string at [a] is [l], then a zero *)
Fixpoint cstr (m : bmem) (a : Z) (l : list Z) : Prop :=
  match l with [] => m a = 0 | c :: l => m a = c /\ c <> 0 /\ cstr m (a + 1) l end.
Lemma strcmp_says m : bytes_mem m -> forall l t a b fuel, cstr m a l -> cstr m b t -> (length l < fuel)%nat ->
  exists r, e2k_strcmp fuel m a b = Some r /\ says r l t.
Proof.
  intros H. induction l as [|c l IH]; intros t a b [|fuel] Ca Cb Hf; try (cbn in Hf; lia); cbn [e2k_strcmp].
  - cbn [cstr] in Ca. rewrite Ca. destruct t as [|d t]; cbn [cstr] in Cb.
    + rewrite Cb. exists 0. split; [reflexivity|]. right; left. split; reflexivity.
    + destruct Cb as (Cb & Nz & _). pose proof (H b). exists (0 - m b). split; [rewrite Bool.orb_true_r; reflexivity|].
      left. split; [lia|constructor].
  - destruct Ca as (Ca & Nc & Ca'). pose proof (H a). destruct t as [|d t]; cbn [cstr] in Cb.
    + exists (m a - m b). replace (negb (m a - m b =? 0)) with true by lia. split; [reflexivity|]. right; right. split; [lia|constructor].
    + destruct Cb as (Cb & Nd & Cb'). destruct (negb (m a - m b =? 0)) eqn:E; cbn [orb].
      * exists (m a - m b). split; [reflexivity|]. destruct (Z.lt_total c d) as [L|[Q|G]]; [left; split; [lia|constructor; exact L]|lia|right; right; split; [lia|constructor; exact G]].
      * replace (m a =? 0) with false by lia. destruct (IH t (a + 1) (b + 1) fuel Ca' Cb' ltac:(cbn in Hf; lia)) as (r & R1 & R2).
        exists r. split; [exact R1|]. replace d with c by lia. apply (says_same r [c]). exact R2.
Qed.
Lemma strncmp_says m : bytes_mem m -> forall n l t a b, cstr m a l -> cstr m b t -> says (e2k_strncmp n m a b) (firstn n l) (firstn n t).
Proof.
  intros H. induction n as [|n IH]; intros l t a b Ca Cb; cbn [e2k_strncmp firstn].
  { right; left. split; reflexivity. }
  destruct l as [|c l]; destruct t as [|d t]; cbn [cstr] in Ca, Cb.
  - rewrite Ca, Cb. right; left. split; reflexivity.
  - destruct Cb as (Cb & Nd & _). pose proof (H b). rewrite Ca. rewrite Bool.orb_true_r. left. split; [lia|constructor].
  - destruct Ca as (Ca & Nc & _). pose proof (H a). replace (negb (m a - m b =? 0)) with true by lia. cbn [orb]. right; right. split; [lia|constructor].
  - destruct Ca as (Ca & Nc & Ca'). destruct Cb as (Cb & Nd & Cb').
    destruct (negb (m a - m b =? 0)) eqn:E; cbn [orb].
    + destruct (Z.lt_total c d) as [L|[Q|G]]; [left; split; [lia|constructor; exact L]|lia|right; right; split; [lia|constructor; exact G]].
    + replace (m a =? 0) with false by lia. replace d with c by lia. apply (says_same _ [c]). apply IH; assumption.
Qed.
Lemma strlen_exact m : forall l a fuel n, cstr m a l -> (length l < fuel)%nat -> e2k_strlen fuel m a n = Some (n + Z.of_nat (length l)).
Proof.
  induction l as [|c l IH]; intros a [|fuel] n C Hf; try (cbn in Hf; lia); cbn [e2k_strlen cstr] in *.
  - rewrite C. cbn. f_equal. lia.
  - destruct C as (C & N & C'). replace (m a =? 0) with false by lia. rewrite IH by (auto; cbn in Hf; lia). f_equal. cbn [length]. lia.
Qed.
Lemma strnlen_exact m : forall l a k n, cstr m a l -> e2k_strnlen k m a n = n + Z.of_nat (Nat.min k (length l)).
Proof.
  induction l as [|c l IH]; intros a [|k] n C; cbn [e2k_strnlen cstr] in *.
  - cbn. lia.
  - rewrite C. cbn. lia.
  - cbn. lia.
  - destruct C as (C & N & C'). replace (m a =? 0) with false by lia. rewrite IH by auto. cbn [length Nat.min]. lia.
Qed.

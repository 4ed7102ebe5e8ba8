(** * HippeusProofs *)
From Verif Require Import Base Hippeus.
From Coq Require Import ZifyBool ZifyNat.
Ltac Zify.zify_post_hook ::= Z.div_mod_to_equations.

(** ** Reference counting *)
Definition is_live (h : hstate) : bool := match h with Held | Deciding => true | _ => false end.
Definition is_last (h : hstate) : bool := match h with Freeing | Drowned => true | _ => false end.
Definition cntb (P : hstate -> bool) (l : list hstate) : Z := fold_right (fun h n => Z.b2z (P h) + n) 0 l.
Lemma cntb_app P l1 l2 : cntb P (l1 ++ l2) = cntb P l1 + cntb P l2.
Proof. unfold cntb. induction l1 as [|h l1 IH]; cbn [app fold_right]; lia. Qed.
Lemma cntb_cons P h l : cntb P (h :: l) = Z.b2z (P h) + cntb P l. Proof. reflexivity. Qed.
Lemma cntb_nonneg P l : 0 <= cntb P l.
Proof. induction l as [|h l IH]; [cbn; lia|]. rewrite cntb_cons. destruct (P h); cbn [Z.b2z]; lia. Qed.
Lemma cntb_zero P l : cntb P l = 0 -> forall h, In h l -> P h = false.
Proof.
  induction l as [|h l IH]; intros E x I; [destruct I|]. rewrite cntb_cons in E. pose proof (cntb_nonneg P l).
  destruct I as [->|I]; [destruct (P x); cbn [Z.b2z] in E; [lia|reflexivity]|apply IH; [|exact I]; destruct (P h); cbn [Z.b2z] in E; lia].
Qed.
(** at most [limit] handles alive *)
Definition live_count (s : rstate) : Z := cntb is_live (r_handles s).
Inductive rreach_lim : rstate -> Prop :=
| rl_init : rreach_lim r_init
| rl_step s t : rreach_lim s -> rstep s t -> live_count t < 2 ^ 31 -> rreach_lim t.
Record RInv (s : rstate) : Prop := {
  ri_alive : cntb is_last (r_handles s) = 0 -> r_freed s = 0 -> r_cnt s = live_count s /\ 0 < live_count s;
  ri_last : 0 < cntb is_last (r_handles s) -> cntb is_last (r_handles s) = 1 /\ live_count s = 0 /\ r_freed s = 0;
  ri_freed : r_freed s <> 0 -> r_freed s = 1 /\ live_count s = 0;
  ri_lim : live_count s < 2 ^ 31
}.
Lemma i32_id x : - 2 ^ 31 <= x < 2 ^ 31 -> i32 x = x.
Proof. intros H. unfold i32, sgn, u32. change (2 ^ (32 - 1)) with (2 ^ 31). destruct (_ <? _) eqn:E; lia. Qed.
Lemma rinv s : rreach_lim s -> RInv s.
Proof.
  induction 1 as [|s t R IH St L].
  { constructor; cbn; try lia. }
  destruct IH as [A B C D].
  pose proof (cntb_nonneg is_last (r_handles s)) as N1. pose proof (cntb_nonneg is_last (r_handles t)) as N2.
  pose proof (cntb_nonneg is_live (r_handles t)) as N3.
  destruct St; unfold live_count in *; cbn [r_cnt r_freed r_handles] in *;
    rewrite ?cntb_app, ?cntb_cons in *; rewrite ?cntb_app in *; cbn [is_live is_last Z.b2z cntb fold_right] in *;
    pose proof (cntb_nonneg is_live l1) as P1; pose proof (cntb_nonneg is_live l2) as P2;
    pose proof (cntb_nonneg is_last l1) as P3; pose proof (cntb_nonneg is_last l2) as P4.
  - assert (E : cntb is_last l1 + (0 + cntb is_last l2) = 0) by lia.
    assert (F : f = 0) by lia. destruct (A E F) as [A1 A2]. rewrite i32_id by lia.
    constructor; cbn [r_cnt r_freed r_handles]; unfold live_count; cbn [r_handles];
      rewrite ?cntb_app, ?cntb_cons, ?cntb_app; cbn [is_live is_last Z.b2z cntb fold_right]; lia.
  - assert (E : cntb is_last l1 + (0 + cntb is_last l2) = 0) by lia.
    assert (F : f = 0) by lia. destruct (A E F) as [A1 A2].
    destruct (c =? 1) eqn:Ec;
    constructor; cbn [r_cnt r_freed r_handles]; unfold live_count; cbn [r_handles];
      rewrite ?cntb_app, ?cntb_cons, ?cntb_app; cbn [is_live is_last Z.b2z cntb fold_right]; lia.
  - assert (E : cntb is_last l1 + (0 + cntb is_last l2) = 0) by lia.
    assert (F : f = 0) by lia. destruct (A E F) as [A1 A2]. rewrite i32_id in * by lia.
    destruct (c - 1 >? 0) eqn:Ec;
    constructor; cbn [r_cnt r_freed r_handles]; unfold live_count; cbn [r_handles];
      rewrite ?cntb_app, ?cntb_cons, ?cntb_app; cbn [is_live is_last Z.b2z cntb fold_right]; lia.
  - constructor; cbn [r_cnt r_freed r_handles]; unfold live_count; cbn [r_handles];
      rewrite ?cntb_app, ?cntb_cons, ?cntb_app; cbn [is_live is_last Z.b2z cntb fold_right]; lia.
  - constructor; cbn [r_cnt r_freed r_handles]; unfold live_count; cbn [r_handles];
      rewrite ?cntb_app, ?cntb_cons, ?cntb_app; cbn [is_live is_last Z.b2z cntb fold_right]; lia.
Qed.
Lemma in_cntb P l h : In h l -> P h = true -> 0 < cntb P l.
Proof.
  induction l as [|x l IH]; intros I H; [destruct I|]. rewrite cntb_cons. pose proof (cntb_nonneg P l).
  destruct I as [->|I]; [rewrite H; cbn [Z.b2z]; lia|specialize (IH I H); destruct (P x); cbn [Z.b2z]; lia].
Qed.

(** ** Borrowing *)
Lemma land_round k x : 0 <= k <= 64 -> 0 <= x < 2 ^ 64 -> Z.land x (2 ^ 64 - 2 ^ k) = x / 2 ^ k * 2 ^ k.
Proof.
  intros Hk Hx. apply Z.bits_inj'. intros i Hi.
  rewrite Z.land_spec. rewrite <- (Z.shiftl_mul_pow2 (x / 2 ^ k)), Z.shiftl_spec by lia.
  replace (2 ^ 64 - 2 ^ k) with (Z.shiftl (Z.ones (64 - k)) k).
  2:{ rewrite Z.shiftl_mul_pow2, Z.ones_equiv by lia.
      replace (2 ^ 64) with (2 ^ (64 - k) * 2 ^ k) by (rewrite <- Z.pow_add_r by lia; f_equal; lia). lia. }
  rewrite Z.shiftl_spec by lia.
  destruct (Z_lt_ge_dec i k) as [L|G].
  - rewrite !(Z.testbit_neg_r _ (i - k)) by lia. apply Bool.andb_false_r.
  - rewrite <- Z.shiftr_div_pow2, Z.shiftr_spec by lia. replace (i - k + k) with i by lia.
    destruct (Z_lt_ge_dec i 64) as [L2|G2].
    + rewrite Z.ones_spec_low by lia. apply Bool.andb_true_r.
    + rewrite Z.ones_spec_high by lia. rewrite Bool.andb_false_r.
      rewrite <- (Z.mod_small x (2 ^ 64)) by lia. rewrite Z.mod_pow2_bits_high by lia. reflexivity.
Qed.
Lemma borrow_ok g wanna block b : g = 0 \/ g = 8 -> 0 <= wanna -> borrow g wanna block = Some b ->
  wanna <= b_space b /\ b_space b < wanna + 64 /\
  b_data b = b_addr b + inplace_offset g /\
  b_block b + g = b_addr b /\
  b_data b + b_space b + g <= b_addr b + b_bytes b /\
  b_addr b + b_bytes b + g = b_block b + b_block_size b /\
  repay g (b_addr b) (b_space b) = (b_block b, b_block_size b).
Proof.
  intros Hg Hw H. unfold borrow in H. destruct (_ || _) eqn:E; [discriminate|].
  unfold buffer_limit in E. injection H as <-. cbn [b_block b_block_size b_addr b_bytes b_space b_data].
  unfold repay, ceil. unfold u64, u32.
  rewrite (Z.mod_small (wanna + space_overhead g + (g * 2 + 8 * 2))) by (destruct Hg; subst; unfold space_overhead, sizeof_buffer, inplace_offset; lia).
  rewrite (Z.mod_small (wanna + space_overhead g + (g * 2 + 8 * 2) + 64 - 1)) by (destruct Hg; subst; unfold space_overhead, sizeof_buffer, inplace_offset; lia).
  rewrite (land_round 6) by (destruct Hg; subst; unfold space_overhead, sizeof_buffer, inplace_offset; lia).
  change (2 ^ 6) with 64.
  destruct Hg; subst; unfold space_overhead, sizeof_buffer, inplace_offset;
    (split; [lia|]; split; [lia|]; split; [lia|]; split; [lia|]; split; [lia|]; split; [lia|]); f_equal; lia.
Qed.

(** ** Guards *)
Lemma guard_setup_probe n : forall c sig r, guard_setup n c sig = Some r -> guard_probe (fst r) (snd r) sig = true.
Proof.
  induction n as [|n IH]; intros c sig r H; [discriminate|]. cbn [guard_setup] in H.
  destruct (fairly c && fairly (mixup c sig)) eqn:E; [|eapply IH; exact H].
  injection H as <-. cbn [fst snd]. unfold guard_probe. rewrite E, Z.eqb_refl. reflexivity.
Qed.

(** ** Bits of words *)
Definition byte_at (w i : Z) : Z := Z.land (Z.shiftr w (8 * i)) 255.
Lemma byte_bit w i j : 0 <= i -> 0 <= j -> Z.testbit (byte_at w i) j = (j <? 8) && Z.testbit w (8 * i + j).
Proof.
  intros Hi Hj. unfold byte_at. rewrite Z.land_spec, Z.shiftr_spec by lia.
  change 255 with (Z.ones 8). rewrite Z.testbit_ones_nonneg by lia.
  rewrite Bool.andb_comm, (Z.add_comm j). reflexivity.
Qed.
Lemma byte_lxor a b i : 0 <= i -> byte_at (Z.lxor a b) i = Z.lxor (byte_at a i) (byte_at b i).
Proof.
  intros Hi. apply Z.bits_inj'. intros j Hj. rewrite Z.lxor_spec, !byte_bit, Z.lxor_spec by lia.
  destruct (j <? 8); reflexivity.
Qed.
Lemma byte_land a b i : 0 <= i -> byte_at (Z.land a b) i = Z.land (byte_at a i) (byte_at b i).
Proof.
  intros Hi. apply Z.bits_inj'. intros j Hj. rewrite Z.land_spec, !byte_bit, Z.land_spec by lia.
  destruct (j <? 8); reflexivity.
Qed.
Lemma byte_range w i : 0 <= byte_at w i < 256.
Proof. unfold byte_at. change 255 with (Z.ones 8). rewrite Z.land_ones by lia. lia. Qed.
Definition bytes_mem (m : bmem) : Prop := forall x, 0 <= m x < 256.
Lemma byte_at_div w i : 0 <= i -> byte_at w i = w / 256 ^ i mod 256.
Proof.
  intros Hi. unfold byte_at. change 255 with (Z.ones 8). rewrite Z.land_ones by lia. rewrite Z.shiftr_div_pow2 by lia.
  rewrite (Z.mul_comm 8 i), Z.mul_comm, Z.pow_mul_r by lia. reflexivity.
Qed.
Lemma word_range n : forall m a, bytes_mem m -> 0 <= word_at_n n m a < 256 ^ Z.of_nat n.
Proof.
  induction n as [|n IH]; intros m a H; [cbn; lia|]. cbn [word_at_n].
  rewrite Nat2Z.inj_succ, Z.pow_succ_r by lia. specialize (IH m (a + 1) H). pose proof (H a). lia.
Qed.
Lemma word_byte n : forall m a i, bytes_mem m -> 0 <= i < Z.of_nat n -> byte_at (word_at_n n m a) i = m (a + i).
Proof.
  induction n as [|n IH]; intros m a i H Hi; [lia|]. cbn [word_at_n]. rewrite byte_at_div by lia.
  destruct (Z.eq_dec i 0) as [->|Nz].
  - rewrite Z.pow_0_r, Z.div_1_r, Z.add_0_r. pose proof (H a). rewrite Z.mul_comm, Z.mod_add by lia. apply Z.mod_small. lia.
  - replace i with (Z.succ (i - 1)) at 1 by lia. rewrite Z.pow_succ_r by lia.
    assert (0 < 256 ^ (i - 1)) by (apply Z.pow_pos_nonneg; lia).
    rewrite <- Z.div_div by lia. pose proof (H a).
    replace ((m a + 256 * word_at_n n m (a + 1)) / 256) with (word_at_n n m (a + 1)).
    2:{ rewrite Z.mul_comm, Z.div_add by lia. rewrite Z.div_small by lia. lia. }
    rewrite <- byte_at_div by lia. rewrite IH by (auto; lia). f_equal. lia.
Qed.
Lemma store_load m a w x : store_word m a w x = if (a <=? x) && (x <? a + 8) then byte_at w (x - a) else m x.
Proof. reflexivity. Qed.

(** masks, by enumeration *)
Definition ff (b : bool) : Z := if b then 255 else 0.
Lemma headmask_bytes u b i : 1 <= u < 8 -> 1 <= b -> 0 <= i < 8 -> byte_at (headmask u b) i = ff ((u <=? i) && (i <? u + b)).
Proof.
  intros Hu Hb Hi.
  assert (Small : forall b, 1 <= b < 9 -> byte_at (headmask u b) i = ff ((u <=? i) && (i <? u + b))).
  { clear b Hb. intros b Hb. apply Z.eqb_eq.
    assert (E : all_below 8 (fun u => all_below 9 (fun b => all_below 8 (fun i =>
              (u =? 0) || (b =? 0) || (byte_at (headmask u b) i =? ff ((u <=? i) && (i <? u + b)))))) = true) by (vm_compute; reflexivity).
    pose proof (all_below_spec _ _ E u ltac:(lia)) as E1. cbv beta in E1.
    pose proof (all_below_spec _ _ E1 b ltac:(lia)) as E2. cbv beta in E2.
    pose proof (all_below_spec _ _ E2 i ltac:(lia)) as E3. cbv beta in E3. lia. }
  destruct (Z_lt_ge_dec b 9) as [L|G]; [apply Small; lia|].
  replace (headmask u b) with (headmask u 8) by (unfold headmask; replace (b - (8 - u) <? 0) with false by lia; replace (8 - (8 - u) <? 0) with false by lia; reflexivity).
  rewrite Small by lia. f_equal. lia.
Qed.
Lemma aheadmask_bytes b i : 1 <= b < 8 -> 0 <= i < 8 -> byte_at (aheadmask b) i = ff (i <? b).
Proof.
  intros Hb Hi. apply Z.eqb_eq.
  assert (E : all_below 8 (fun b => all_below 8 (fun i => (b =? 0) || (byte_at (aheadmask b) i =? ff (i <? b)))) = true) by (vm_compute; reflexivity).
  pose proof (all_below_spec _ _ E b ltac:(lia)) as E1. cbv beta in E1.
  pose proof (all_below_spec _ _ E1 i ltac:(lia)) as E2. cbv beta in E2. lia.
Qed.
Lemma whole_bytes i : 0 <= i < 8 -> byte_at whole i = 255.
Proof.
  intros Hi. apply Z.eqb_eq.
  assert (E : all_below 8 (fun i => byte_at whole i =? 255) = true) by (vm_compute; reflexivity).
  exact (all_below_spec _ _ E i ltac:(lia)).
Qed.
Lemma land_ff x b : 0 <= x < 256 -> Z.land x (ff b) = if b then x else 0.
Proof. intros H. destruct b; cbn [ff]; [change 255 with (Z.ones 8); rewrite Z.land_ones by lia; apply Z.mod_small; lia|apply Z.land_0_r]. Qed.

(** ** Pollution: every byte of the range is xored with a key that depends on the address and the
    arguments, not on the memory *)
Definition xored (K : Z -> Z) (lo hi : Z) (m m' : bmem) : Prop :=
  forall x, m' x = if (lo <=? x) && (x <? hi) then Z.lxor (m x) (K x) else m x.

Lemma pollute_word (cong : bool) v m a mask lo hi : bytes_mem m ->
  (forall i, 0 <= i < 8 -> byte_at mask i = ff ((lo <=? a + i) && (a + i <? hi))) ->
  a <= lo -> hi <= a + 8 ->
  let v' := if cong then linear_congruential v else v in
  exists m', pollute_functor cong v m a mask = (v', m', false) /\
    xored (fun x => byte_at v' (x - a)) lo hi m m' /\ bytes_mem m'.
Proof.
  intros H Hm Hlo Hhi v'. eexists. split; [unfold pollute_functor; fold v'; reflexivity|].
  assert (X : xored (fun x => byte_at v' (x - a)) lo hi m (store_word m a (Z.lxor (word_at m a) (Z.land v' mask)))).
  { intros x. rewrite store_load.
    destruct ((a <=? x) && (x <? a + 8)) eqn:E.
    - rewrite byte_lxor, byte_land by lia. unfold word_at. rewrite word_byte by (auto; lia).
      rewrite Hm by lia. rewrite land_ff by apply byte_range. replace (a + (x - a)) with x by lia.
      destruct ((lo <=? x) && (x <? hi)); [reflexivity|]. apply Z.lxor_0_r.
    - replace ((lo <=? x) && (x <? hi)) with false by lia. reflexivity. }
  split; [exact X|]. intros x. rewrite X. destruct (_ && _); [|apply H].
  apply (lxor_bound _ _ 8); [lia|apply H|apply byte_range].
Qed.

Lemma xored_app K1 K2 lo mid hi m1 m2 m3 : lo <= mid <= hi -> xored K1 lo mid m1 m2 -> xored K2 mid hi m2 m3 ->
  xored (fun x => if x <? mid then K1 x else K2 x) lo hi m1 m3.
Proof.
  intros L X1 X2 x. rewrite X2, X1.
  destruct ((mid <=? x) && (x <? hi)) eqn:E1; destruct ((lo <=? x) && (x <? mid)) eqn:E2; destruct ((lo <=? x) && (x <? hi)) eqn:E3;
    destruct (x <? mid) eqn:E4; try lia; reflexivity.
Qed.
Lemma xored_nil K lo m : xored K lo lo m m.
Proof. intros x. replace ((lo <=? x) && (x <? lo)) with false by lia. reflexivity. Qed.


(** keys of the words from [a] on *)
(** the value of the functor after [n] words *)
Definition keyword (cong : bool) (n : nat) (v : Z) : Z := Nat.iter n (fun v => if cong then linear_congruential v else v) v.
Lemma keyword_S cong n v : keyword cong (S n) v = keyword cong n (if cong then linear_congruential v else v).
Proof. induction n as [|n IH]; [reflexivity|]. unfold keyword in *. cbn [Nat.iter nat_rect] in *. rewrite IH. reflexivity. Qed.
Lemma keyword_false n v : keyword false n v = v.
Proof. induction n as [|n IH]; [reflexivity|exact IH]. Qed.
Lemma pollute_words (cong : bool) n : forall v a bytes, n = Z.to_nat (bytes / 8) ->
  exists K, (forall x, a <= x < a + bytes -> a mod 8 = 0 -> K x = byte_at (keyword cong (S (Z.to_nat ((x - a) / 8))) v) (x mod 8)) /\
  forall m, bytes_mem m -> exists v' m', apply_words (pollute_functor cong) n v m a bytes = (v', m', false) /\
    xored K a (a + Z.max 0 bytes) m m' /\ bytes_mem m'.
Proof.
  induction n as [|n IH]; intros v a bytes Hn.
  - cbn [apply_words]. set (v' := if cong then linear_congruential v else v).
    exists (fun x => byte_at v' (x - a)). split.
    { intros x Hx Ha. cbv beta. replace (Z.to_nat ((x - a) / 8)) with 0%nat by lia. change (keyword cong 1 v) with v'. f_equal. lia. }
    intros m H. destruct (bytes >? 0) eqn:E.
    + destruct (pollute_word cong v m a (aheadmask bytes) a (a + bytes) H) as (m' & E1 & X & B); try lia.
      { intros i Hi. rewrite aheadmask_bytes by lia. f_equal. lia. }
      exists v', m'. split; [exact E1|]. rewrite Z.max_r by lia. split; [exact X|exact B].
    + exists v, m. split; [reflexivity|]. rewrite Z.max_l by lia. rewrite Z.add_0_r. split; [apply xored_nil|exact H].
  - set (v' := if cong then linear_congruential v else v).
    destruct (IH v' (a + 8) (bytes - 8) ltac:(lia)) as (K & K1 & K2).
    exists (fun x => if x <? a + 8 then byte_at v' (x - a) else K x). split.
    { intros x Hx Ha. cbv beta. destruct (x <? a + 8) eqn:E.
      - replace (Z.to_nat ((x - a) / 8)) with 0%nat by lia. change (keyword cong 1 v) with v'. f_equal. lia.
      - rewrite K1 by lia. replace (Z.to_nat ((x - a) / 8)) with (S (Z.to_nat ((x - (a + 8)) / 8))) by lia. rewrite (keyword_S cong (S _) v). reflexivity. }
    intros m H. cbn [apply_words].
    destruct (pollute_word cong v m a whole a (a + 8) H) as (m' & E1 & X & B); try lia.
    { intros i Hi. rewrite whole_bytes by lia. replace ((a <=? a + i) && (a + i <? a + 8)) with true by lia. reflexivity. }
    rewrite E1. fold v'. destruct (K2 m' B) as (v2 & m2 & E2 & X2 & B2). exists v2, m2. split; [exact E2|].
    split; [|exact B2]. eapply (xored_app _ _ a (a + 8)); [|exact X|]; [lia|].
    replace (a + Z.max 0 bytes) with (a + 8 + Z.max 0 (bytes - 8)) by lia. exact X2.
Qed.
Lemma pollute_applier (cong : bool) v p bytes : 0 < bytes ->
  exists K, (forall x, p <= x < p + bytes -> K x = byte_at (keyword cong (S (Z.to_nat ((x - (p - p mod 8)) / 8))) v) (x mod 8)) /\
  forall m, bytes_mem m -> exists v' m', applier (pollute_functor cong) v m p bytes = (v', m', false) /\
    xored K p (p + bytes) m m' /\ bytes_mem m'.
Proof.
  intros Hb. unfold applier. destruct (p mod 8 =? 0) eqn:E.
  - destruct (pollute_words cong _ v p bytes eq_refl) as (K & K1 & K2). exists K. split.
    + intros x Hx. replace (p - p mod 8) with p by lia. apply K1; lia.
    + intros m H. destruct (K2 m H) as (v' & m' & A & B & C). exists v', m'. rewrite Z.max_r in B by lia. auto.
  - set (u := p mod 8) in *. set (v' := if cong then linear_congruential v else v).
    destruct (pollute_words cong _ v' (p - u + 8) (bytes - (8 - u)) eq_refl) as (K & K1 & K2).
    set (mid := Z.min (p - u + 8) (p + bytes)).
    exists (fun x => if x <? mid then byte_at v' (x - (p - u)) else K x). split.
    { intros x Hx. cbv beta. destruct (x <? mid) eqn:E2.
      - replace (Z.to_nat ((x - (p - u)) / 8)) with 0%nat by (unfold mid, u in *; lia). change (keyword cong 1 v) with v'. f_equal. unfold mid, u in *; lia.
      - rewrite K1 by (unfold mid, u in *; lia). replace (Z.to_nat ((x - (p - u)) / 8)) with (S (Z.to_nat ((x - (p - u + 8)) / 8))) by (unfold mid, u in *; lia).
        rewrite (keyword_S cong (S _) v). reflexivity. }
    intros m H.
    destruct (pollute_word cong v m (p - u) (headmask u bytes) p mid H) as (m' & E1 & X & B).
    { intros i Hi. rewrite headmask_bytes by (unfold u in *; lia). f_equal. unfold mid, u in *. lia. }
    { unfold u; lia. } { unfold mid; lia. }
    rewrite E1. fold v'. destruct (K2 m' B) as (v2 & m2 & E2 & X2 & B2). exists v2, m2. split; [exact E2|].
    split; [|exact B2]. eapply (xored_app _ _ p mid); [|exact X|]; [unfold mid, u in *; lia|].
    destruct (Z_lt_ge_dec (p - u + 8) (p + bytes)) as [L|G].
    + replace mid with (p - u + 8) by (unfold mid; lia).
      replace (p + bytes) with (p - u + 8 + Z.max 0 (bytes - (8 - u))) by lia. exact X2.
    + replace mid with (p + bytes) by (unfold mid; lia). intros x. rewrite X2.
      replace ((p - u + 8 <=? x) && (x <? p - u + 8 + Z.max 0 (bytes - (8 - u)))) with false by lia.
      replace ((p + bytes <=? x) && (x <? p + bytes)) with false by lia. reflexivity.
Qed.

(** ** Zero test *)
Lemma byte_zero w : (forall i, 0 <= i < 8 -> byte_at w i = 0) -> 0 <= w < 2 ^ 64 -> w = 0.
Proof.
  intros H R. apply Z.bits_inj'. intros j Hj. rewrite Z.bits_0.
  destruct (Z_lt_ge_dec j 64) as [L|G].
  - specialize (H (j / 8) ltac:(lia)). assert (E : Z.testbit (byte_at w (j / 8)) (j mod 8) = false) by (rewrite H; apply Z.bits_0).
    rewrite byte_bit in E by lia. replace (8 * (j / 8) + j mod 8) with j in E by lia.
    replace (j mod 8 <? 8) with true in E by lia. exact E.
  - rewrite <- (Z.mod_small w (2 ^ 64)) by lia. apply Z.mod_pow2_bits_high. lia.
Qed.
Lemma probe_word m a mask lo hi : bytes_mem m -> 0 <= mask < 2 ^ 64 ->
  (forall i, 0 <= i < 8 -> byte_at mask i = ff ((lo <=? a + i) && (a + i <? hi))) ->
  a <= lo -> hi <= a + 8 ->
  (Z.land (word_at m a) mask =? 0) = true <-> (forall x, lo <= x < hi -> m x = 0).
Proof.
  intros H Rm Hm Hlo Hhi. rewrite Z.eqb_eq. split.
  - intros E x Hx. pose proof (byte_land (word_at m a) mask (x - a) ltac:(lia)) as B. rewrite E in B.
    unfold word_at in B. rewrite word_byte in B by (auto; lia). rewrite Hm in B by lia. replace (a + (x - a)) with x in B by lia.
    rewrite land_ff in B by apply H. replace ((lo <=? x) && (x <? hi)) with true in B by lia.
    rewrite <- B. unfold byte_at. rewrite Z.shiftr_0_l. reflexivity.
  - intros Hz. apply byte_zero.
    + intros i Hi. rewrite byte_land by lia. unfold word_at. rewrite word_byte by (auto; lia). rewrite Hm by lia.
      rewrite land_ff by apply H. destruct (_ && _) eqn:E; [apply Hz; lia|reflexivity].
    + pose proof (word_range 8 m a H) as R. apply (land_bound_r mask (word_at m a)) || idtac.
      unfold word_at. pose proof (Z.land_nonneg (word_at_n 8 m a) mask). split; [apply Z.land_nonneg; lia|].
      destruct (Z.eq_dec (Z.land (word_at_n 8 m a) mask) 0) as [->|Nz]; [lia|].
      assert (0 <= Z.land (word_at_n 8 m a) mask) by (apply Z.land_nonneg; lia).
      apply Z.log2_lt_pow2; [lia|]. pose proof (Z.log2_land (word_at_n 8 m a) mask ltac:(lia) ltac:(lia)).
      assert (mask <> 0) by (intros ->; rewrite Z.land_0_r in Nz; lia).
      assert (Z.log2 mask < 64) by (apply Z.log2_lt_pow2; lia). lia.
Qed.
Lemma aheadmask_range b : 1 <= b < 8 -> 0 <= aheadmask b < 2 ^ 64.
Proof.
  intros H. assert (E : all_below 8 (fun b => (0 <=? aheadmask b) && (aheadmask b <? 2 ^ 64)) = true) by (vm_compute; reflexivity).
  pose proof (all_below_spec _ _ E b ltac:(lia)) as E1. cbv beta in E1. lia.
Qed.
Lemma probe_words n : forall m a bytes, n = Z.to_nat (bytes / 8) -> bytes_mem m ->
  (snd (apply_words probe4zero n tt m a bytes) = false <-> (forall x, a <= x < a + bytes -> m x = 0)).
Proof.
  induction n as [|n IH]; intros m a bytes Hn H.
  - cbn [apply_words]. destruct (bytes >? 0) eqn:E.
    + cbn [probe4zero snd]. rewrite Bool.negb_false_iff.
      apply (probe_word m a (aheadmask bytes) a (a + bytes) H); try lia; [apply aheadmask_range; lia|].
      intros i Hi. rewrite aheadmask_bytes by lia. f_equal. lia.
    + cbn [snd]. split; [intros _ x Hx; lia|reflexivity].
  - cbn [apply_words]. cbn [probe4zero].
    pose proof (probe_word m a whole a (a + 8) H ltac:(unfold whole; lia)) as P.
    assert (P' : (Z.land (word_at m a) whole =? 0) = true <-> (forall x, a <= x < a + 8 -> m x = 0)).
    { apply P; try lia. intros i Hi. rewrite whole_bytes by lia. replace ((a <=? a + i) && (a + i <? a + 8)) with true by lia. reflexivity. }
    clear P. destruct (Z.land (word_at m a) whole =? 0) eqn:E; cbn [negb].
    + rewrite (IH m (a + 8) (bytes - 8) ltac:(lia) H). destruct P' as [P1 _]. specialize (P1 eq_refl). split.
      * intros Q x Hx. destruct (Z_lt_ge_dec x (a + 8)); [apply P1; lia|apply Q; lia].
      * intros Q x Hx. apply Q. lia.
    + cbn [snd]. split; [discriminate|]. intros Q. exfalso.
      assert (Y : false = true) by (apply P'; intros x Hx; apply Q; lia). discriminate.
Qed.
Lemma headmask_range u b : 1 <= u < 8 -> 0 <= headmask u b < 2 ^ 64.
Proof. intros H. unfold headmask. unfold u64. lia. Qed.
Lemma is_zeroed_iff m p bytes : bytes_mem m -> 0 < bytes ->
  (is_zeroed m p bytes = true <-> (forall x, p <= x < p + bytes -> m x = 0)).
Proof.
  intros H Hb. unfold is_zeroed. replace (bytes >? 0) with true by lia. cbn [andb]. rewrite Bool.negb_true_iff.
  unfold applier. destruct (p mod 8 =? 0) eqn:E; [apply probe_words; auto|].
  set (u := p mod 8) in *. set (mid := Z.min (p - u + 8) (p + bytes)).
  cbn [probe4zero].
  assert (P' : (Z.land (word_at m (p - u)) (headmask u bytes) =? 0) = true <-> (forall x, p <= x < mid -> m x = 0)).
  { apply probe_word; auto; try (unfold mid, u in *; lia); [apply headmask_range; unfold u in *; lia|].
    intros i Hi. rewrite headmask_bytes by (unfold u in *; lia). f_equal. unfold mid, u in *. lia. }
  destruct (Z.land (word_at m (p - u)) (headmask u bytes) =? 0) eqn:E2; cbn [negb].
  - rewrite (probe_words _ m (p - u + 8) (bytes - (8 - u)) eq_refl H). destruct P' as [P1 _]. specialize (P1 eq_refl). split.
    + intros Q x Hx. destruct (Z_lt_ge_dec x mid); [apply P1; lia|apply Q; unfold mid in *; lia].
    + intros Q x Hx. apply Q. unfold u in *; lia.
  - cbn [snd]. split; [discriminate|]. intros Q. exfalso.
    assert (Y : false = true) by (apply P'; intros x Hx; apply Q; unfold mid in *; lia). discriminate.
Qed.

(** ** log2size *)
Lemma log2size_inv n : forall value k j lo step,
  0 < step -> 0 <= lo -> 0 <= k < j -> lo + step * j < 64 -> step * (j - k) <= Z.of_nat n ->
  (forall i, 0 <= i < k -> 2 ^ (lo + step * i) < value) ->
  exists e, k <= e <= j /\ log2size_loop n value (2 ^ (lo + step * k)) (2 ^ (lo + step * j)) step = 2 ^ (lo + step * e) /\
    (value <= 2 ^ (lo + step * e) \/ e = j) /\ (forall i, 0 <= i < e -> 2 ^ (lo + step * i) < value).
Proof.
  induction n as [|n IH]; intros value k j lo step Hs Hlo Hk Hj Hn Hi.
  - exfalso. assert (0 < step * (j - k)) by (apply Z.mul_pos_pos; lia). lia.
  - cbn [log2size_loop]. destruct (value >? 2 ^ (lo + step * k)) eqn:E.
    + assert (S1 : lo + step * k + step = lo + step * (k + 1)) by ring.
      assert (K1 : 0 <= step * k) by (apply Z.mul_nonneg_nonneg; lia).
      assert (K2 : step * (k + 1) <= step * j) by (apply Z.mul_le_mono_nonneg_l; lia).
      rewrite Z.shiftl_mul_pow2, <- Z.pow_add_r, S1 by lia.
      assert (B : 2 ^ (lo + step * (k + 1)) < 2 ^ 64) by (apply Z.pow_lt_mono_r; lia).
      assert (B0 : 0 < 2 ^ (lo + step * (k + 1))) by (apply Z.pow_pos_nonneg; lia).
      unfold u64. rewrite Z.mod_small by lia.
      assert (Hi' : forall i, 0 <= i < k + 1 -> 2 ^ (lo + step * i) < value).
      { intros i Hi2. destruct (Z.eq_dec i k) as [->|]; [clear - E; lia|apply Hi; lia]. }
      destruct (2 ^ (lo + step * (k + 1)) >=? 2 ^ (lo + step * j)) eqn:E2.
      * assert (k + 1 = j).
        { destruct (Z.eq_dec (k + 1) j); [assumption|exfalso].
          assert (step * (k + 1) < step * j) by (apply Z.mul_lt_mono_pos_l; lia).
          assert (2 ^ (lo + step * (k + 1)) < 2 ^ (lo + step * j)) by (apply Z.pow_lt_mono_r; lia). lia. }
        subst j. exists (k + 1). split; [lia|]. split; [reflexivity|]. auto.
      * assert (k + 1 < j).
        { destruct (Z.eq_dec (k + 1) j) as [<-|]; [|lia]. clear - E2. lia. }
        assert (step * (j - (k + 1)) = step * (j - k) - step) by ring.
        destruct (IH value (k + 1) j lo step) as (e & A & B1 & C & D); auto; try lia.
        exists e. split; [lia|]. auto.
    + exists k. split; [lia|]. split; [reflexivity|]. split; [left; lia|exact Hi].
Qed.

(** ** Byte predicates *)
Lemma word_zero n : forall m a, bytes_mem m -> (word_at_n n m a = 0 <-> (forall i, 0 <= i < Z.of_nat n -> m (a + i) = 0)).
Proof.
  induction n as [|n IH]; intros m a H; cbn [word_at_n]; [split; [intros _ i Hi; lia|reflexivity]|].
  pose proof (H a) as Ha. pose proof (word_range n m (a + 1) H) as R. rewrite Nat2Z.inj_succ. split.
  - intros E. assert (E1 : word_at_n n m (a + 1) = 0) by lia. assert (E2 : m a = 0) by lia.
    intros i Hi. destruct (Z.eq_dec i 0) as [->|]; [rewrite Z.add_0_r; exact E2|].
    replace (a + i) with (a + 1 + (i - 1)) by lia. apply (IH m (a + 1) H); [exact E1|lia].
  - intros Q. assert (E1 : word_at_n n m (a + 1) = 0).
    { apply IH; auto. intros i Hi. replace (a + 1 + i) with (a + (i + 1)) by lia. apply Q. lia. }
    rewrite E1. pose proof (Q 0 ltac:(lia)) as E2. rewrite Z.add_0_r in E2. lia.
Qed.
Lemma word_ones n : forall m a, bytes_mem m -> (word_at_n n m a = 256 ^ Z.of_nat n - 1 <-> (forall i, 0 <= i < Z.of_nat n -> m (a + i) = 255)).
Proof.
  induction n as [|n IH]; intros m a H; cbn [word_at_n]; [split; [intros _ i Hi; lia|reflexivity]|].
  pose proof (H a) as Ha. pose proof (word_range n m (a + 1) H) as R. rewrite Nat2Z.inj_succ, Z.pow_succ_r by lia. split.
  - intros E. assert (E1 : word_at_n n m (a + 1) = 256 ^ Z.of_nat n - 1) by lia. assert (E2 : m a = 255) by lia.
    intros i Hi. destruct (Z.eq_dec i 0) as [->|]; [rewrite Z.add_0_r; exact E2|].
    replace (a + i) with (a + 1 + (i - 1)) by lia. apply (IH m (a + 1) H); [exact E1|lia].
  - intros Q. assert (E1 : word_at_n n m (a + 1) = 256 ^ Z.of_nat n - 1).
    { apply IH; auto. intros i Hi. replace (a + 1 + i) with (a + (i + 1)) by lia. apply Q. lia. }
    rewrite E1. pose proof (Q 0 ltac:(lia)) as E2. rewrite Z.add_0_r in E2. lia.
Qed.
Lemma pow256 n : (0 < n)%nat -> 256 ^ Z.of_nat n = 2 * 2 ^ (8 * Z.of_nat n - 1).
Proof.
  intros H. change 256 with (2 ^ 8). rewrite <- Z.pow_mul_r by lia.
  replace (8 * Z.of_nat n) with (Z.succ (8 * Z.of_nat n - 1)) at 1 by lia. apply Z.pow_succ_r. lia.
Qed.
Lemma sload_zero n m a : (0 < n)%nat -> bytes_mem m -> (sload n m a = 0 <-> (forall i, 0 <= i < Z.of_nat n -> m (a + i) = 0)).
Proof.
  intros Hn H. rewrite <- (word_zero n m a H). pose proof (word_range n m a H) as R. unfold sload, sgn.
  rewrite (Z.pow_mul_r 2 8) by lia. change (2 ^ 8) with 256. rewrite Z.mod_small by exact R. pose proof (pow256 n Hn).
  assert (0 < 2 ^ (8 * Z.of_nat n - 1)) by (apply Z.pow_pos_nonneg; lia).
  destruct (_ <? _) eqn:E; lia.
Qed.
Lemma sload_ones n m a : (0 < n)%nat -> bytes_mem m -> (sload n m a = -1 <-> (forall i, 0 <= i < Z.of_nat n -> m (a + i) = 255)).
Proof.
  intros Hn H. rewrite <- (word_ones n m a H). pose proof (word_range n m a H) as R. unfold sload, sgn.
  rewrite (Z.pow_mul_r 2 8) by lia. change (2 ^ 8) with 256. rewrite Z.mod_small by exact R. pose proof (pow256 n Hn).
  assert (0 < 2 ^ (8 * Z.of_nat n - 1)) by (apply Z.pow_pos_nonneg; lia).
  destruct (_ <? _) eqn:E; lia.
Qed.
Lemma land_m1 a b : Z.land a b = -1 <-> a = -1 /\ b = -1.
Proof.
  split; [|intros [-> ->]; reflexivity]. intros E.
  assert (forall i, 0 <= i -> Z.testbit a i && Z.testbit b i = true).
  { intros i Hi. rewrite <- Z.land_spec, E. apply Z.bits_m1. exact Hi. }
  split; apply Z.bits_inj'; intros i Hi; rewrite Z.bits_m1 by exact Hi; specialize (H i Hi); destruct (Z.testbit a i), (Z.testbit b i); auto; discriminate.
Qed.
Definition all_at (v : Z) (m : bmem) (a n : Z) : Prop := forall i, 0 <= i < n -> m (a + i) = v.
Lemma all_at_app v m a n1 n2 : 0 <= n1 -> 0 <= n2 -> (all_at v m a (n1 + n2) <-> all_at v m a n1 /\ all_at v m (a + n1) n2).
Proof.
  intros H1 H2. unfold all_at. split.
  - intros H. split; intros i Hi; [apply H; lia|]. replace (a + n1 + i) with (a + (n1 + i)) by lia. apply H. lia.
  - intros [A B] i Hi. destruct (Z_lt_ge_dec i n1); [apply A; lia|].
    replace (a + i) with (a + n1 + (i - n1)) by lia. apply B. lia.
Qed.
Lemma disj_small k m a : bytes_mem m -> (1 <= k <= 8)%nat -> (disjunction_small k m a = 0 <-> all_at 0 m a (Z.of_nat k)).
Proof.
  intros H Hk. destruct k as [|[|[|[|[|[|[|[|[|k]]]]]]]]]; try lia; cbn [disjunction_small];
    rewrite ?Z.lor_eq_0_iff, ?sload_zero by (auto; lia); fold (all_at 0 m a).
  all: try reflexivity.
  - change (Z.of_nat 3) with (2 + 1). rewrite all_at_app by lia. reflexivity.
  - change (Z.of_nat 5) with (4 + 1). rewrite all_at_app by lia. reflexivity.
  - change (Z.of_nat 6) with (4 + 2). rewrite all_at_app by lia. reflexivity.
  - change (Z.of_nat 7) with (4 + 2 + 1). rewrite !all_at_app by lia. replace (a + (4 + 2)) with (a + 6) by lia. reflexivity.
Qed.
Lemma conj_small k m a : bytes_mem m -> (1 <= k <= 8)%nat -> (conjunction_small k m a = -1 <-> all_at 255 m a (Z.of_nat k)).
Proof.
  intros H Hk. destruct k as [|[|[|[|[|[|[|[|[|k]]]]]]]]]; try lia; cbn [conjunction_small];
    rewrite ?land_m1, ?sload_ones by (auto; lia); fold (all_at 255 m a).
  all: try reflexivity.
  - change (Z.of_nat 3) with (2 + 1). rewrite all_at_app by lia. reflexivity.
  - change (Z.of_nat 5) with (4 + 1). rewrite all_at_app by lia. reflexivity.
  - change (Z.of_nat 6) with (4 + 2). rewrite all_at_app by lia. reflexivity.
  - change (Z.of_nat 7) with (4 + 2 + 1). rewrite !all_at_app by lia. replace (a + (4 + 2)) with (a + 6) by lia. reflexivity.
Qed.
Lemma disj_all n : forall k m a, bytes_mem m -> (1 <= k <= 8)%nat ->
  (bytes_disjunction n k m a = 0 <-> all_at 0 m a (8 * Z.of_nat n + Z.of_nat k)).
Proof.
  induction n as [|n IH]; intros k m a H Hk; cbn [bytes_disjunction]; [apply disj_small; auto|].
  rewrite Z.lor_eq_0_iff, sload_zero, IH by (auto; lia).
  replace (8 * Z.of_nat (S n) + Z.of_nat k) with (8 + (8 * Z.of_nat n + Z.of_nat k)) by lia.
  rewrite (all_at_app _ _ a 8) by lia. reflexivity.
Qed.
Lemma conj_all n : forall k m a, bytes_mem m -> (1 <= k <= 8)%nat ->
  (bytes_conjunction n k m a = -1 <-> all_at 255 m a (8 * Z.of_nat n + Z.of_nat k)).
Proof.
  induction n as [|n IH]; intros k m a H Hk; cbn [bytes_conjunction]; [apply conj_small; auto|].
  rewrite land_m1, sload_ones, IH by (auto; lia).
  replace (8 * Z.of_nat (S n) + Z.of_nat k) with (8 + (8 * Z.of_nat n + Z.of_nat k)) by lia.
  rewrite (all_at_app _ _ a 8) by lia. reflexivity.
Qed.

(** ** Packing *)
Lemma lor_pack a b k : 0 <= k -> 0 <= b < 2 ^ k -> Z.lor (a * 2 ^ k) b = a * 2 ^ k + b.
Proof.
  intros Hk Hb. pose proof (lor_split a 0 0 b k Hk ltac:(lia) Hb) as E.
  rewrite Z.mul_0_l, Z.add_0_r, Z.add_0_l, Z.lor_0_r, Z.lor_0_l in E. exact E.
Qed.
Lemma shl_small x k n : 0 <= k <= n -> 0 <= x < 2 ^ (n - k) -> Z.shiftl x k mod 2 ^ n = x * 2 ^ k.
Proof.
  intros Hk Hx. rewrite Z.shiftl_mul_pow2 by lia. apply Z.mod_small.
  assert (0 < 2 ^ k) by (apply Z.pow_pos_nonneg; lia).
  replace (2 ^ n) with (2 ^ (n - k) * 2 ^ k) by (rewrite <- Z.pow_add_r by lia; f_equal; lia).
  split; [apply Z.mul_nonneg_nonneg; lia|apply Z.mul_lt_mono_pos_r; lia].
Qed.
Lemma tag_value allot_id depot crate flags :
  0 <= flags < 16 -> 0 <= allot_id < 2 ^ 28 -> 0 <= depot < 2 ^ 16 -> 0 <= crate < 2 ^ 16 ->
  tag_of_parts allot_id depot crate flags = crate * 2 ^ 48 + depot * 2 ^ 32 + allot_id * 2 ^ 4 + flags.
Proof.
  intros H1 H2 H3 H4. unfold tag_of_parts, u64.
  rewrite (shl_small allot_id 4 64), (shl_small depot 32 64), (shl_small crate 48 64) by lia.
  rewrite (Z.lor_comm flags), (lor_pack allot_id flags 4) by lia.
  rewrite (Z.lor_comm _ (depot * _)), (lor_pack depot _ 32) by lia.
  rewrite (Z.lor_comm _ (crate * _)), (lor_pack crate _ 48) by lia. lia.
Qed.

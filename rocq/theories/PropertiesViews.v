(** * Properties of string views: construction, conversions, access, iteration *)
From Verif Require Import Base Hippeus HippeusProofs Values ValuesProofs PropertiesValues Views.
From Verif Require Codec PropertiesCodec.
From Coq Require Import ZifyBool ZifyNat.
Ltac Zify.zify_post_hook ::= Z.div_mod_to_equations.

(** nil, or an address with a count a machine can have *)
Definition proper (v : sview) : Prop := v = sv_nil \/ (sv_str v <> 0 /\ 0 <= sv_len v < 2 ^ 63).
Lemma to_intptr_small n : 0 <= n < 2 ^ 63 -> to_intptr n = n.
Proof.
  intros H. change (2 ^ 63) with 9223372036854775808 in H. unfold to_intptr, sgn, u64. change (2 ^ (64 - 1)) with 9223372036854775808. change (2 ^ 64) with 18446744073709551616.
  cbv zeta. rewrite Z.mod_mod by lia. rewrite Z.mod_small by lia. destruct (Z.ltb_spec n 9223372036854775808); lia.
Qed.
Lemma to_intptr_big n : 2 ^ 63 <= n < 2 ^ 64 -> to_intptr n = n - 2 ^ 64.
Proof.
  intros H. change (2 ^ 63) with 9223372036854775808 in H. unfold to_intptr, sgn, u64. change (2 ^ (64 - 1)) with 9223372036854775808. change (2 ^ 64) with 18446744073709551616 in *.
  cbv zeta. rewrite Z.mod_mod by lia. rewrite Z.mod_small by lia. destruct (Z.ltb_spec n 9223372036854775808); lia.
Qed.
Lemma to_intptr_neg n : - 2 ^ 63 <= n < 0 -> to_intptr n = n.
Proof.
  intros H. change (2 ^ 63) with 9223372036854775808 in H. unfold to_intptr, sgn, u64. change (2 ^ (64 - 1)) with 9223372036854775808. change (2 ^ 64) with 18446744073709551616 in *.
  cbv zeta. rewrite Z.mod_mod by lia. replace (n mod 18446744073709551616) with (n + 18446744073709551616).
  - destruct (Z.ltb_spec (n + 18446744073709551616) 9223372036854775808); lia.
  - symmetry. rewrite <- (Z.mod_add n 1 18446744073709551616) by lia. rewrite Z.mod_small by lia. lia.
Qed.
Lemma sv_length_pos v : 0 <= sv_len v -> sv_length v = sv_len v.
Proof. intros H. unfold sv_length. destruct (Z.geb_spec (sv_len v) 0); lia. Qed.
Lemma sv_length_neg v : sv_len v < 0 -> sv_length v = 0.
Proof. intros H. unfold sv_length. destruct (Z.geb_spec (sv_len v) 0); lia. Qed.
Lemma nth_bytes_at m : forall n a i d, (i < n)%nat -> nth i (bytes_at m a n) d = m (a + Z.of_nat i).
Proof.
  induction n as [|n IH]; intros a i d H; [lia|]. destruct i as [|i]; cbn [bytes_at nth]; [f_equal; lia|]. rewrite IH by lia. f_equal. lia.
Qed.

(** ** Construction *)
(** a view has the address and length it is made of; a null address makes nil *)
Theorem C88_made : forall p n, 0 <= n < 2 ^ 63 ->
  proper (view_counted p n) /\ proper (view_range p (p + n)) /\
  (p <> 0 -> view_counted p n = mkSV p n /\ view_range p (p + n) = mkSV p n /\
             sv_is_nil (mkSV p n) = false /\ (sv_is_empty (mkSV p n) = true <-> n = 0)) /\
  (p = 0 -> view_counted p n = sv_nil /\ view_range p (p + n) = sv_nil).
Proof.
  intros p n H. unfold view_counted, view_range, proper, sv_is_nil, sv_is_empty. replace (p + n - p) with n by lia.
  rewrite (to_intptr_small n H). cbn [sv_str sv_len]. destruct (Z.eqb_spec p 0) as [->|N].
  - split; [left; reflexivity|]. split; [left; reflexivity|]. split; [intros X; contradiction X; reflexivity|]. intros _. split; reflexivity.
  - split; [right; split; [exact N|exact H]|]. split; [right; split; [exact N|exact H]|]. split; [|intros X; contradiction].
    intros _. split; [reflexivity|]. split; [reflexivity|]. change (2 ^ 63) with 9223372036854775808 in H. split; [lia|]. lia.
Qed.
Lemma c_strlen_spec m : forall fuel p n, c_strlen fuel m p = Some n ->
  0 <= n < Z.of_nat fuel /\ m (p + n) = 0 /\ (forall i, 0 <= i < n -> m (p + i) <> 0).
Proof.
  induction fuel as [|fuel IH]; intros p n H; [discriminate|]. cbn [c_strlen] in H. destruct (Z.eqb_spec (m p) 0) as [E|E].
  - injection H as <-. rewrite Z.add_0_r. split; [lia|]. split; [exact E|lia].
  - destruct (c_strlen fuel m (p + 1)) as [k|] eqn:R; [|discriminate]. injection H as <-. destruct (IH _ _ R) as (A & B & C).
    split; [lia|]. replace (p + (k + 1)) with (p + 1 + k) by lia. split; [exact B|]. intros i Hi.
    destruct (Z.eq_dec i 0) as [->|N]; [rewrite Z.add_0_r; exact E|]. replace (p + i) with (p + 1 + (i - 1)) by lia. apply C. lia.
Qed.
Lemma c_strlen_found m : forall fuel p n, 0 <= n < Z.of_nat fuel -> m (p + n) = 0 -> (forall i, 0 <= i < n -> m (p + i) <> 0) ->
  c_strlen fuel m p = Some n.
Proof.
  induction fuel as [|fuel IH]; intros p n H Z0 N; [lia|]. cbn [c_strlen]. destruct (Z.eqb_spec (m p) 0) as [E|E].
  - destruct (Z.eq_dec n 0) as [->|X]; [reflexivity|]. exfalso. apply (N 0); [lia|]. rewrite Z.add_0_r. exact E.
  - destruct (Z.eq_dec n 0) as [->|X]; [exfalso; apply E; rewrite Z.add_0_r in Z0; exact Z0|].
    rewrite (IH (p + 1) (n - 1)); [f_equal; lia|lia| |].
    + replace (p + 1 + (n - 1)) with (p + n) by lia. exact Z0.
    + intros i Hi. replace (p + 1 + i) with (p + (i + 1)) by lia. apply N. lia.
Qed.
(** a zero-terminated text makes the view of the bytes before its first zero byte, which no longer view has *)
Theorem C88_text : forall fuel m p n, p <> 0 -> 0 <= n < Z.of_nat fuel -> Z.of_nat fuel <= 2 ^ 63 ->
  (view_text fuel m p = Some (mkSV p n) <-> m (p + n) = 0 /\ ~ In 0 (sv_bytes m (mkSV p n))).
Proof.
  intros fuel m p n Hp Hf Hn. unfold view_text. replace (p =? 0) with false by lia.
  assert (IN : In 0 (sv_bytes m (mkSV p n)) <-> exists i, 0 <= i < n /\ m (p + i) = 0).
  { unfold sv_bytes. rewrite sv_length_pos by (cbn; lia). cbn [sv_len sv_str]. split.
    - intros I. apply (In_nth _ _ 1) in I. destruct I as (i & Li & Ei). rewrite bytes_at_length in Li. rewrite nth_bytes_at in Ei by exact Li.
      exists (Z.of_nat i). split; [lia|exact Ei].
    - intros (i & Hi & Ei). rewrite <- Ei. replace i with (Z.of_nat (Z.to_nat i)) by lia. rewrite <- (nth_bytes_at m (Z.to_nat n) p (Z.to_nat i) 1) by lia.
      apply nth_In. rewrite bytes_at_length. lia. }
  rewrite IN. clear IN. split.
  - destruct (c_strlen fuel m p) as [k|] eqn:E; [|discriminate]. intros H. destruct (c_strlen_spec _ _ _ _ E) as (A & B & C).
    assert (K : k = n).
    { assert (L : to_intptr k = n) by congruence. rewrite <- L. symmetry. apply to_intptr_small. lia. }
    subst k. split; [exact B|]. intros (i & Hi & Ei). exact (C i Hi Ei).
  - intros [Z0 N]. rewrite (c_strlen_found m fuel p n Hf Z0).
    + rewrite to_intptr_small by lia. reflexivity.
    + intros i Hi Q. apply N. exists i. split; assumption.
Qed.

(** counts of 2^63 and more, and ends before their beginnings, make views that hold an address and yet are nil:
    no bytes, whatever the memory holds there *)
Theorem C88_overlong_refuted : forall m p n, p <> 0 ->
  (2 ^ 63 <= n < 2 ^ 64 -> let v := view_counted p n in sv_is_nil v = true /\ sv_str v = p /\ sv_bytes m v = [] /\ ~ proper v) /\
  (- 2 ^ 63 <= n < 0 -> let v := view_range p (p + n) in sv_is_nil v = true /\ sv_str v = p /\ sv_bytes m v = [] /\ ~ proper v).
Proof.
  intros m p n Hp. unfold view_counted, view_range, sv_is_nil, proper, sv_nil. replace (p + n - p) with n by lia. replace (p =? 0) with false by lia.
  assert (G : forall k, k < 0 -> (sv_len (mkSV p k) <? 0) = true /\ sv_str (mkSV p k) = p /\ sv_bytes m (mkSV p k) = [] /\
                          ~ (mkSV p k = mkSV 0 (-1) \/ sv_str (mkSV p k) <> 0 /\ 0 <= sv_len (mkSV p k) < 2 ^ 63)).
  { intros k Hk. unfold sv_bytes. rewrite sv_length_neg by exact Hk. cbn [sv_len sv_str]. split; [lia|]. split; [reflexivity|]. split; [reflexivity|].
    intros [E|[_ [L _]]]; [apply Hp; congruence|lia]. }
  split; intros H; cbv zeta.
  - rewrite (to_intptr_big n H). apply G. change (2 ^ 64) with 18446744073709551616 in *. lia.
  - rewrite (to_intptr_neg n H). apply G. lia.
Qed.
(** the count that standard views use for "up to the end" makes a view that is equal to nil, and that of this class
    one of 2147483647 bytes *)
Theorem C88_npos_refuted : forall mc m p, conforming mc -> p <> 0 ->
  sv_compare mc m (view_counted p (2 ^ 64 - 1)) sv_nil = 0 /\ sv_length (view_counted p sv_npos) = 2147483647.
Proof.
  intros mc m p C Hp. split.
  - apply (C28_compare_exact mc m _ _ C). unfold view_counted, sv_nil. replace (p =? 0) with false by lia. split; reflexivity.
  - unfold view_counted. replace (p =? 0) with false by lia. reflexivity.
Qed.

(** ** Standard strings and views *)
(** there and back again: every view with an address, and every standard view a machine can have *)
Theorem C88_std_view_partial :
  (forall v, proper v -> v <> sv_nil -> view_of_std (std_of_view v) = v) /\
  (forall w, 0 <= std_size w < 2 ^ 63 -> std_of_view (view_of_std w) = w) /\
  (forall m v, bytes_at m (std_data (std_of_view v)) (Z.to_nat (std_size (std_of_view v))) = sv_bytes m v).
Proof.
  split; [|split].
  - intros [p n] [E|[Hp Hn]] N; [contradiction|]. unfold view_of_std, std_of_view. cbn [std_data std_size sv_str sv_len] in *.
    rewrite sv_length_pos by (cbn; lia). cbn [sv_len]. rewrite to_intptr_small by exact Hn. reflexivity.
  - intros [p n] H. unfold view_of_std, std_of_view. cbn [std_data std_size sv_str sv_len] in *. rewrite to_intptr_small by exact H.
    rewrite sv_length_pos by (cbn; lia). reflexivity.
  - reflexivity.
Qed.
(** nil comes back as a view of null with no bytes: not nil, not equal to nil, and greater *)
Theorem C88_nil_lost_refuted : forall mc m, conforming mc ->
  let v := view_of_std (std_of_view sv_nil) in
  v = mkSV 0 0 /\ sv_is_nil v = false /\ sv_is_nil sv_nil = true /\ ~ proper v /\ 0 < sv_compare mc m v sv_nil /\
  (* the default standard view makes the same view, but the pair (null, 0) makes nil *)
  v = view_of_std (mkStd 0 0) /\ view_counted 0 0 = sv_nil.
Proof.
  intros mc m C v. subst v. split; [reflexivity|]. split; [reflexivity|]. split; [reflexivity|]. split.
  - intros [E|[H _]]; [discriminate E|apply H; reflexivity].
  - split; [|split; reflexivity]. apply (C28_compare_exact mc m _ _ C). left. reflexivity.
Qed.
(** a copy in a standard string is equal to its source, unless the source is nil: then it never is *)
Theorem C88_string_partial : forall mc m v s, conforming mc -> proper v -> holds m s -> Z.of_nat (length (str_bytes s)) < 2 ^ 63 ->
  str_bytes s = string_of_view m v ->
  proper (view_of_string s) /\ (sv_compare mc m (view_of_string s) v = 0 <-> v <> sv_nil).
Proof.
  intros mc m v s C Pv (Hs & Hb) L E. unfold view_of_string. rewrite to_intptr_small by lia. split.
  - right. cbn [sv_str sv_len]. split; [exact Hs|lia].
  - rewrite (proj1 (proj2 (C28_compare_exact mc m _ v C))). cbn [sv_len]. split.
    + intros [Q _] ->. cbn [sv_len sv_nil] in Q. lia.
    + intros N. destruct Pv as [X|[Hp Hn]]; [contradiction|]. assert (Q : Z.of_nat (length (str_bytes s)) = sv_len v).
      { rewrite E. unfold string_of_view, sv_bytes. rewrite bytes_at_length, sv_length_pos by lia. lia. }
      split; [exact Q|]. unfold sv_bytes at 1. rewrite sv_length_pos by (cbn; lia). cbn [sv_len sv_str]. rewrite Nat2Z.id, Hb. exact E.
Qed.
Theorem C88_string_nil_refuted : forall mc m s, conforming mc -> holds m s -> str_bytes s = string_of_view m sv_nil ->
  str_bytes s = [] /\ 0 < sv_compare mc m (view_of_string s) sv_nil /\ compare_string mc m sv_nil s < 0.
Proof.
  intros mc m s C _ E. assert (N : str_bytes s = []) by (rewrite E; reflexivity). split; [exact N|]. unfold compare_string, view_of_string. rewrite N.
  split; apply (C28_compare_exact mc m _ _ C); left; reflexivity.
Qed.
(** comparison with a standard string: equal exactly when the bytes are and the view is not nil; both sides agree *)
Theorem C88_compare_string : forall mc m v s, conforming mc -> proper v -> holds m s -> Z.of_nat (length (str_bytes s)) < 2 ^ 63 ->
  (compare_string mc m v s = 0 <-> v <> sv_nil /\ sv_bytes m v = str_bytes s) /\
  (compare_string mc m v s < 0 <-> 0 < string_compare mc m s v) /\
  (compare_string mc m v s = 0 <-> string_compare mc m s v = 0) /\
  (compare_string mc m v s < 0 <-> sv_len v < Z.of_nat (length (str_bytes s)) \/
     sv_len v = Z.of_nat (length (str_bytes s)) /\ lexlt (sv_bytes m v) (str_bytes s)).
Proof.
  intros mc m v s C Pv (Hs & Hb) L. unfold compare_string, string_compare.
  assert (W : view_of_string s = mkSV (str_place s) (Z.of_nat (length (str_bytes s)))) by (unfold view_of_string; rewrite to_intptr_small by lia; reflexivity).
  assert (B : sv_bytes m (view_of_string s) = str_bytes s).
  { rewrite W. unfold sv_bytes. rewrite sv_length_pos by (cbn; lia). cbn [sv_str sv_len]. rewrite Nat2Z.id. exact Hb. }
  assert (Q : sv_len (view_of_string s) = Z.of_nat (length (str_bytes s))) by (rewrite W; reflexivity).
  pose proof (C28_compare_exact mc m v (view_of_string s) C) as (A1 & A2 & A3).
  pose proof (C28_compare_exact mc m (view_of_string s) v C) as (B1 & B2 & B3).
  split; [|split; [|split]].
  - rewrite A2, B, Q. split.
    + intros [X Y]. split; [|exact Y]. intros ->. cbn [sv_len sv_nil] in X. lia.
    + intros [X Y]. split; [|exact Y]. destruct Pv as [E|[_ Hn]]; [contradiction|]. rewrite <- Y. unfold sv_bytes. rewrite bytes_at_length, sv_length_pos by lia. lia.
  - rewrite A1, B3. reflexivity.
  - rewrite A2, B2. split; intros [X Y]; split; congruence.
  - rewrite A1. unfold sv_lt. rewrite B, Q. reflexivity.
Qed.
(** the order is not that of standard strings: "b" is less than "aa" *)
Theorem C88_order_refuted : exists m v w, proper v /\ proper w /\ lexlt (sv_bytes m w) (sv_bytes m v) /\
  forall mc, conforming mc -> sv_compare mc m v w < 0.
Proof.
  exists (fun a => if a =? 10 then 98 else 97), (mkSV 10 1), (mkSV 20 2). split; [right; cbn; lia|]. split; [right; cbn; lia|]. split.
  - vm_compute. apply lx_head. reflexivity.
  - intros mc C. apply (C28_compare_exact mc _ _ _ C). left. reflexivity.
Qed.
Theorem C88_order_partial : forall mc m v w, conforming mc -> sv_len v = sv_len w ->
  (sv_compare mc m v w < 0 <-> lexlt (sv_bytes m v) (sv_bytes m w)).
Proof.
  intros mc m v w C E. rewrite (proj1 (C28_compare_exact mc m v w C)). unfold sv_lt. split; [intros [X|[_ X]]; [lia|exact X]|intros X; right; split; assumption].
Qed.

(** exchanging twice with a standard view: when it restores both *)
Theorem C88_swap_exact : forall v w, - 2 ^ 63 <= sv_len v < 2 ^ 63 -> 0 <= std_size w < 2 ^ 64 ->
  (let '(v1, w1) := swap_std v w in swap_std v1 w1 = (v, w)) <-> 0 <= sv_len v /\ std_size w < 2 ^ 63.
Proof.
  intros [p n] [q k] Hn Hk. cbn [sv_len std_size] in *. unfold swap_std, view_of_std, std_of_view. cbn [std_data std_size sv_str sv_len].
  change (2 ^ 63) with 9223372036854775808 in *. change (2 ^ 64) with 18446744073709551616 in *.
  split.
  - intros E. assert (E1 : to_intptr (sv_length (mkSV p n)) = n) by congruence. assert (E2 : sv_length (mkSV q (to_intptr k)) = k) by congruence. split.
    + destruct (Z_lt_le_dec n 0) as [X|X]; [|exact X]. rewrite sv_length_neg in E1 by exact X. change (to_intptr 0) with 0 in E1. lia.
    + destruct (Z_lt_le_dec k 9223372036854775808) as [X|X]; [exact X|]. rewrite (to_intptr_big k) in E2 by (split; [exact X|apply Hk]).
      rewrite sv_length_neg in E2 by (cbn [sv_len]; change (2 ^ 64) with 18446744073709551616; lia). lia.
  - intros [A B]. rewrite (sv_length_pos (mkSV p n)) by exact A. cbn [sv_len]. rewrite to_intptr_small by (split; [exact A|apply Hn]).
    rewrite to_intptr_small by (split; [apply Hk|exact B]). rewrite sv_length_pos by (cbn [sv_len]; apply Hk). reflexivity.
Qed.
Theorem C88_swap_refuted : forall w, 0 <= std_size w < 2 ^ 63 ->
  let '(v1, w1) := swap_std sv_nil w in swap_std v1 w1 = (mkSV 0 0, w).
Proof.
  intros [q k] H. unfold swap_std, view_of_std, std_of_view. cbn [std_data std_size sv_str sv_len] in *. rewrite (to_intptr_small k H).
  rewrite (sv_length_pos (mkSV q k)) by (cbn; lia). reflexivity.
Qed.
(** exchanging two views twice restores them *)
Theorem C88_swap_views : forall v w, swap_view v w = (w, v) /\ (let '(a, b) := swap_view v w in swap_view a b) = (v, w).
Proof. intros v w. split; reflexivity. Qed.
(** the pairs that getters hand over keep every proper view, nil included; a view of null with no bytes becomes nil *)
Theorem C88_thunk : (forall v, proper v -> view_of_thunk (thunk_of_view v) = v) /\
  (forall v, proper v -> view_of_thunk (std_of_view v) = v) /\ view_of_thunk (thunk_of_view (mkSV 0 0)) = sv_nil.
Proof.
  assert (G : forall v, proper v -> view_of_thunk (thunk_of_view v) = v).
  { intros v [->|[Hp Hn]]; [reflexivity|]. destruct v as [p n]. unfold view_of_thunk, thunk_of_view, view_counted. cbn [std_data std_size sv_str sv_len] in *.
    replace (p =? 0) with false by lia. rewrite sv_length_pos by (cbn; lia). cbn [sv_len]. rewrite to_intptr_small by exact Hn. reflexivity. }
  split; [exact G|]. split; [exact G|reflexivity].
Qed.

(** ** Access and iteration *)
(** the checked access gives the byte at every position below the size and refuses all others *)
Theorem C88_at : forall m v pos, 0 <= pos ->
  sv_at m v pos = nth_error (sv_bytes m v) (Z.to_nat pos) /\ (sv_at m v pos = None <-> sv_length v <= pos) /\
  (forall c, sv_at m v pos = Some c -> sv_index m v pos = c).
Proof.
  intros m v pos H. unfold sv_at, sv_index. destruct (Z.geb_spec pos (sv_length v)) as [G|G].
  - split; [symmetry; apply nth_error_None; unfold sv_bytes; rewrite bytes_at_length; lia|]. split; [split; [intros _; exact G|reflexivity]|discriminate].
  - split.
    + rewrite (nth_error_nth' _ 0) by (unfold sv_bytes; rewrite bytes_at_length; lia). unfold sv_bytes. rewrite nth_bytes_at by lia. do 2 f_equal. lia.
    + split; [split; [discriminate|lia]|]. intros c E. congruence.
Qed.
(** the first and the last byte *)
Theorem C88_ends : forall m v d, 0 < sv_len v -> sv_front m v = hd d (sv_bytes m v) /\ sv_back m v = last (sv_bytes m v) d.
Proof.
  intros m [p n] d H. cbn [sv_len] in H. unfold sv_front, sv_back, sv_bytes. rewrite sv_length_pos by (cbn; lia). cbn [sv_str sv_len].
  replace (Z.to_nat n) with (Z.to_nat (n - 1) + 1)%nat by lia. split.
  - replace (Z.to_nat (n - 1) + 1)%nat with (S (Z.to_nat (n - 1))) by lia. reflexivity.
  - rewrite bytes_at_app. cbn [bytes_at]. rewrite last_last. f_equal. lia.
Qed.
Lemma walk_up_at m : forall n a extra, walk_up (n + extra) m a (a + Z.of_nat n) = Some (bytes_at m a n).
Proof.
  induction n as [|n IH]; intros a extra.
  - rewrite Z.add_0_r. destruct (0 + extra)%nat; cbn [walk_up bytes_at]; rewrite Z.eqb_refl; reflexivity.
  - cbn [Nat.add walk_up bytes_at]. replace (a =? a + Z.of_nat (S n)) with false by lia. replace (a + Z.of_nat (S n)) with (a + 1 + Z.of_nat n) by lia.
    rewrite IH. reflexivity.
Qed.
Lemma walk_down_at m : forall n a extra, walk_down (n + extra) m (a + Z.of_nat n) a = Some (rev (bytes_at m a n)).
Proof.
  induction n as [|n IH]; intros a extra.
  - rewrite Z.add_0_r. destruct (0 + extra)%nat; cbn [walk_down bytes_at rev]; rewrite Z.eqb_refl; reflexivity.
  - cbn [Nat.add walk_down]. replace (a + Z.of_nat (S n) =? a) with false by lia. replace (a + Z.of_nat (S n) - 1) with (a + Z.of_nat n) by lia.
    rewrite IH. replace (S n) with (n + 1)%nat by lia. rewrite bytes_at_app, rev_app_distr. reflexivity.
Qed.
(** walks from [begin] to [end] see exactly the bytes in order; reverse walks see them backwards *)
Theorem C88_walks : forall m v extra,
  walk_up (Z.to_nat (sv_length v) + extra) m (sv_begin v) (sv_end v) = Some (sv_bytes m v) /\
  walk_down (Z.to_nat (sv_length v) + extra) m (sv_end v) (sv_begin v) = Some (rev (sv_bytes m v)).
Proof.
  intros m v extra. unfold sv_begin, sv_end, sv_bytes.
  assert (L : 0 <= sv_length v) by (unfold sv_length; destruct (Z.geb_spec (sv_len v) 0); lia).
  replace (sv_str v + sv_length v) with (sv_str v + Z.of_nat (Z.to_nat (sv_length v))) by lia. split; [apply walk_up_at|apply walk_down_at].
Qed.

(** ** What comparisons hand to [memcmp] *)
(** no null, as long as all views are proper *)
Theorem C88_no_null : forall a b p q, proper a -> proper b -> compares_at a b = Some (p, q) -> p <> 0 /\ q <> 0.
Proof.
  intros a b p q Pa Pb. unfold compares_at. destruct ((sv_len a =? sv_len b) && negb (sv_str a =? sv_str b)) eqn:E; [|discriminate].
  intros H. assert (P : sv_str a = p) by congruence. assert (Q : sv_str b = q) by congruence. subst p q.
  apply andb_prop in E. destruct E as [E1 E2].
  destruct Pa as [->|[Ha La]], Pb as [->|[Hb Lb]]; cbn [sv_len sv_str sv_nil] in *; try (split; assumption); lia.
Qed.
(** a null for views that went through a standard view: comparing one with any other empty view *)
Theorem C88_null_refuted : forall p, p <> 0 -> compares_at (view_of_std (std_of_view sv_nil)) (view_counted p 0) = Some (0, p).
Proof. intros p H. unfold compares_at, view_counted, view_of_std, std_of_view. cbn [sv_str sv_len std_data std_size]. replace (p =? 0) with false by lia.
  change (sv_str sv_nil) with 0. replace (0 =? p) with false by lia. reflexivity. Qed.
(** the difference of two lengths is a machine number, up to the greatest length that standard strings may have *)
Theorem C88_difference : forall a b, proper a -> proper b -> sv_length a < 2 ^ 63 - 1 -> sv_length b < 2 ^ 63 - 1 ->
  - 2 ^ 63 <= sv_len a - sv_len b < 2 ^ 63.
Proof.
  intros a b Pa Pb. change (2 ^ 63) with 9223372036854775808.
  destruct Pa as [->|[_ Ha]], Pb as [->|[_ Hb]]; rewrite ?(sv_length_pos a), ?(sv_length_pos b) by lia; cbn [sv_len sv_nil]; change (2 ^ 63) with 9223372036854775808 in *; lia.
Qed.
Theorem C88_difference_refuted : exists a, proper a /\ ~ - 2 ^ 63 <= sv_len a - sv_len sv_nil < 2 ^ 63.
Proof. exists (mkSV 1 (2 ^ 63 - 1)). split; [right; cbn [sv_str sv_len]; lia|]. cbn [sv_len sv_nil]. lia. Qed.

(** [max_size] says 15 bits, but fields take strings of 131325 and binaries of 262136 bytes *)
Theorem C88_max_size_refuted : forall n, 0 <= n -> (n <= sv_max_size <-> n < 2 ^ 15) /\
  (sv_max_size < n <= 131325 -> Codec.string_estimate n <> None) /\ (sv_max_size < n <= 262136 -> Codec.varbin_estimate n <> None).
Proof.
  intros n H. destruct (PropertiesCodec.C15_overlong_refused n H) as (A & B & _). unfold sv_max_size. split; [change (2 ^ 15) with 32768; lia|].
  split; intros L E; [apply A in E|apply B in E]; lia.
Qed.

(** ** Cases *)
Definition abc (a : Z) : Z := match a with 100 => 97 | 101 => 98 | 102 => 99 | 103 => 0 | 104 => 100 | _ => 0 end.
Example C88_case : view_text 10 abc 100 = Some (mkSV 100 3) /\ sv_bytes abc (mkSV 100 3) = [97; 98; 99] /\
  sv_at abc (mkSV 100 3) 2 = Some 99 /\ sv_at abc (mkSV 100 3) 3 = None /\ walk_down 5 abc 103 100 = Some [99; 98; 97] /\
  holds abc (mkStr 101 [98; 99]) /\ compare_string first_difference abc (mkSV 101 2) (mkStr 101 [98; 99]) = 0 /\
  compare_string first_difference abc (mkSV 100 2) (mkStr 101 [98; 99]) < 0 /\ proper (mkSV 100 3) /\ proper sv_nil.
Proof.
  unfold holds. cbn [str_place str_bytes]. repeat match goal with |- _ /\ _ => split end; try (vm_compute; reflexivity); try lia;
    first [left; reflexivity|right; cbn; lia].
Qed.
Example C88_memcmp_exists : conforming first_difference.
Proof. exact C27_conforming_exists. Qed.

Print Assumptions C88_made. Print Assumptions C88_text. Print Assumptions C88_overlong_refuted. Print Assumptions C88_npos_refuted.
Print Assumptions C88_std_view_partial. Print Assumptions C88_nil_lost_refuted. Print Assumptions C88_string_partial.
Print Assumptions C88_string_nil_refuted. Print Assumptions C88_compare_string. Print Assumptions C88_order_refuted.
Print Assumptions C88_order_partial. Print Assumptions C88_swap_exact. Print Assumptions C88_swap_refuted. Print Assumptions C88_swap_views.
Print Assumptions C88_thunk. Print Assumptions C88_at. Print Assumptions C88_ends. Print Assumptions C88_walks. Print Assumptions C88_no_null.
Print Assumptions C88_null_refuted. Print Assumptions C88_difference. Print Assumptions C88_difference_refuted. Print Assumptions C88_max_size_refuted.

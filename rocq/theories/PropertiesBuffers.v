(** * PropertiesBuffers: C85, shared buffers in memory. *)
From Coq Require Import ZArith List Lia Bool ZifyBool FinFun.
From Verif Require Import Base Hippeus HippeusProofs PropertiesHippeus MixProofs Guarded GuardedProofs PropertiesGuarded Buffers.
Import ListNotations.
Local Open Scope Z_scope.
Ltac Zify.zify_post_hook ::= Z.div_mod_to_equations.

(** ** Words in memory *)
Lemma word_range m a : bytes m -> 0 <= word m a < 2 ^ 32.
Proof.
  intros B. unfold word. pose proof (B a). pose proof (B (a + 1)). pose proof (B (a + 2)). pose proof (B (a + 3)).
  change (2 ^ 8) with 256. change (2 ^ 16) with 65536. change (2 ^ 24) with 16777216. change (2 ^ 32) with 4294967296. lia.
Qed.
Lemma put_dword_bytes m a w : bytes m -> bytes (put_dword m a w).
Proof. intros B. unfold put_dword. repeat apply put_word_bytes. exact B. Qed.
Lemma put_dword_other m a w x : x < a \/ a + 8 <= x -> put_dword m a w x = m x.
Proof. intros N. unfold put_dword. rewrite !put_word_other by lia. reflexivity. Qed.
Lemma dword_frame m m' a : (forall x, a <= x < a + 8 -> m' x = m x) -> dword m' a = dword m a.
Proof. intros F. unfold dword. rewrite !(word_frame m m') by (intros; apply F; lia). reflexivity. Qed.
Lemma put_word_mod m a w x : put_word m a w x = put_word m a (u32 w) x.
Proof.
  unfold put_word, put, u32. change (2 ^ 8) with 256. change (2 ^ 16) with 65536. change (2 ^ 24) with 16777216. change (2 ^ 32) with 4294967296.
  destruct (x =? a + 3); [lia|]. destruct (x =? a + 2); [lia|]. destruct (x =? a + 1); [lia|]. destruct (x =? a); lia.
Qed.
Lemma word_put m a w : word (put_word m a w) a = u32 w.
Proof.
  rewrite (word_frame (put_word m a (u32 w))) by (intros; apply put_word_mod). apply word_put_word. unfold u32. change (2 ^ 32) with 4294967296. lia.
Qed.
Lemma dword_put m a w : 0 <= w < 2 ^ 64 -> dword (put_dword m a w) a = w.
Proof.
  intros W. unfold dword, put_dword. rewrite (word_frame (put_word m a w) _ a) by (intros; apply put_word_other; lia).
  rewrite !word_put. unfold u32. change (2 ^ 32) with 4294967296. change (2 ^ 64) with 18446744073709551616 in W. lia.
Qed.

(** ** What the parts of a header depend on *)
Definition header_same (m m' : mem) (a : Z) : Prop := forall x, a <= x < a + 48 -> m' x = m x.
Lemma size_same m m' a : header_same m m' a -> size m' a = size m a.
Proof. intros F. apply word_frame. intros; apply F; unfold at_space in *; lia. Qed.
Lemma counter_same m m' a : header_same m m' a -> counter m' a = counter m a.
Proof. intros F. unfold counter. f_equal. apply word_frame. intros; apply F; unfold at_ref in *; lia. Qed.
Lemma host_same m m' a : header_same m m' a -> host m' a = host m a.
Proof. intros F. apply dword_frame. intros; apply F; unfold at_host in *; lia. Qed.
Lemma off_same m m' a : header_same m m' a -> dword m' (a + at_offset) = dword m (a + at_offset).
Proof. intros F. apply dword_frame. intros; apply F; unfold at_offset in *; lia. Qed.
Lemma solid_same m m' a : header_same m m' a -> is_solid m' a = is_solid m a.
Proof. intros F. unfold is_solid. rewrite (off_same m m' a F). reflexivity. Qed.
Lemma over_same m m' a : header_same m m' a ->
  (is_solid m a = true -> forall x, a + 48 + size m a <= x < a + 48 + size m a + 8 -> m' x = m x) ->
  check m' a = check m a /\ ensure m' a = ensure m a.
Proof.
  intros F O. unfold check, ensure. rewrite (size_same m m' a F), (counter_same m m' a F), (host_same m m' a F), (solid_same m m' a F).
  rewrite (guard_frame m m' (a + at_head)) by (intros; apply F; unfold at_head in *; lia).
  rewrite (guard_frame m m' (a + at_under)) by (intros; apply F; unfold at_under in *; lia).
  destruct (is_solid m a) eqn:S; [|split; reflexivity].
  rewrite (guard_frame m m' (a + at_inplace + size m a)) by (intros; apply O; [reflexivity|unfold at_inplace in *; lia]). split; reflexivity.
Qed.

(** ** Making *)
(** A header as [init] leaves it: fields as given, one reference, guards sound. *)
Record made (m : mem) (a h off bytes_ : Z) : Prop := {
  md_bytes : bytes m;
  md_size : size m a = bytes_;
  md_host : host m a = h;
  md_off : dword m (a + at_offset) = off;
  md_head : guard_ok m (a + at_head) lab_head = true;
  md_under : guard_ok m (a + at_under) lab_under = true;
  md_over : off = 48 -> guard_ok m (a + 48 + bytes_) lab_over = true
}.
Lemma init_made m a h payload n gu gh go m' : bytes m -> 0 <= a <= 2 ^ 64 - 64 -> 0 <= h < 2 ^ 64 -> set_up lab_under gu -> set_up lab_head gh -> set_up lab_over go ->
  0 <= payload < 2 ^ 64 -> 0 <= n < 2 ^ 32 -> init m a h payload n gu gh go = Some m' ->
  made m' a h (if payload =? 0 then 0 else u64 (payload - a)) n /\ counter m' a = 1 /\
  (forall x, x < a \/ a + 48 <= x < a + 48 + n \/ a + 48 + n + 8 <= x -> m' x = m x) /\
  (payload <> a + 48 -> forall x, x < a \/ a + 48 <= x -> m' x = m x).
Proof.
  intros B A H U G O P N I. unfold init in I. destruct (_ && _) eqn:E; [|discriminate]. cbv zeta in I.
  unfold at_space, at_host, at_ref, at_offset, at_under, at_head, at_inplace in I.
  set (off := if payload =? 0 then 0 else u64 (payload - a)) in *.
  assert (Ro : 0 <= off < 2 ^ 64). { unfold off. destruct (payload =? 0); [lia|]. unfold u64. apply Z.mod_pos_bound. reflexivity. }
  destruct (set_up_facts _ _ U) as (U1 & U2 & U3). destruct (set_up_facts _ _ G) as (G1 & G2 & G3). destruct (set_up_facts _ _ O) as (O1 & O2 & O3).
  set (m1 := put_word m (a + 24) (u32 n)) in *. set (m2 := put_dword m1 (a + 32) h) in *. set (m3 := put_word m2 (a + 28) 1) in *.
  set (m4 := put_dword m3 (a + 8) off) in *. set (m5 := put_guard m4 (a + 40) gu) in *. set (m6 := put_guard m5 (a + 0) gh) in *.
  assert (B6 : bytes m6). { unfold m6, m5, m4, m3, m2, m1. repeat (apply put_guard_bytes || apply put_dword_bytes || apply put_word_bytes). exact B. }
  assert (H6 : header_same m6 m' a). { intros x Hx. destruct (payload =? a + 48); injection I as <-; [apply put_guard_other; lia|reflexivity]. }
  assert (Sz : size m6 a = n).
  { unfold size, at_space. rewrite (word_frame m1).
    - unfold m1. rewrite word_put. unfold u32. change (2 ^ 32) with 4294967296 in *. rewrite Z.mod_mod by lia. apply Z.mod_small. lia.
    - intros x Hx. unfold m6, m5, m4, m3, m2. rewrite !put_guard_other, put_dword_other, put_word_other, put_dword_other by lia. reflexivity. }
  assert (Ct : counter m6 a = 1).
  { unfold counter, at_ref. rewrite (word_frame m3).
    - unfold m3. rewrite word_put. reflexivity.
    - intros x Hx. unfold m6, m5, m4. rewrite !put_guard_other, put_dword_other by lia. reflexivity. }
  assert (Ho : host m6 a = h).
  { unfold host, at_host. rewrite (dword_frame m2).
    - unfold m2. apply dword_put, H.
    - intros x Hx. unfold m6, m5, m4, m3. rewrite !put_guard_other, put_dword_other, put_word_other by lia. reflexivity. }
  assert (Of : dword m6 (a + at_offset) = off).
  { unfold at_offset. rewrite (dword_frame m4).
    - unfold m4. apply dword_put, Ro.
    - intros x Hx. unfold m6, m5. rewrite !put_guard_other by lia. reflexivity. }
  assert (B' : bytes m'). { destruct (payload =? a + 48); injection I as <-; [apply put_guard_bytes|]; exact B6. }
  split; [|split; [|split]].
  - constructor.
    + exact B'.
    + rewrite (size_same m6 m' a H6). exact Sz.
    + rewrite (host_same m6 m' a H6). exact Ho.
    + rewrite (off_same m6 m' a H6). exact Of.
    + rewrite (guard_frame m6 m') by (intros; apply H6; unfold at_head in *; lia). unfold at_head, m6. rewrite guard_put by assumption. exact G3.
    + rewrite (guard_frame m6 m') by (intros; apply H6; unfold at_under in *; lia). unfold at_under, m6. rewrite (guard_frame m5) by (intros; apply put_guard_other; lia).
      unfold m5. rewrite guard_put by assumption. exact U3.
    + intros E48. assert (Ep : payload = a + 48).
      { unfold off in E48. destruct (payload =? 0) eqn:P0; [lia|]. unfold u64 in E48. change (2 ^ 64) with 18446744073709551616 in *. lia. }
      rewrite Ep, Z.eqb_refl in I. injection I as <-. rewrite guard_put by assumption. exact O3.
  - rewrite (counter_same m6 m' a H6). exact Ct.
  - intros x Hx. transitivity (m6 x).
    + destruct (payload =? a + 48); injection I as <-; [apply put_guard_other; lia|reflexivity].
    + unfold m6, m5, m4, m3, m2, m1. rewrite !put_guard_other, put_dword_other, put_word_other, put_dword_other, put_word_other by lia. reflexivity.
  - intros Np x Hx. transitivity (m6 x).
    + destruct (payload =? a + 48) eqn:Ep; [lia|]. injection I as <-. reflexivity.
    + unfold m6, m5, m4, m3, m2, m1. rewrite !put_guard_other, put_dword_other, put_word_other, put_dword_other, put_word_other by lia. reflexivity.
Qed.

(** Which headers are sound: [check] and [ensure] say so of every header made. *)
Lemma made_check m a h off n : made m a h off n -> h <> 0 -> 0 <= n -> counter m a > 0 ->
  check m a = true /\ ensure m a = (n >? 0).
Proof.
  intros M Hh Hn Hc. unfold check, ensure, is_solid, at_inplace. rewrite (md_size _ _ _ _ _ M), (md_host _ _ _ _ _ M), (md_off _ _ _ _ _ M), (md_head _ _ _ _ _ M), (md_under _ _ _ _ _ M).
  replace (negb (0 >? n)) with true by lia. replace (negb (counter m a <=? 0)) with true by lia. replace (negb (h =? 0)) with true by lia. replace (counter m a >? 0) with true by lia.
  destruct (off =? 48) eqn:E.
  - rewrite (md_over _ _ _ _ _ M) by lia. destruct (n >? 0); split; reflexivity.
  - destruct (n >? 0); split; reflexivity.
Qed.

(** *** A header is made exactly for a payload whose address and length are both zero or both not;
    it then holds what it was given, passes its checks, and nothing outside the header and the guard
    behind a solid payload is written. *)
Theorem C85_made : forall m a h payload n gu gh go,
  bytes m -> 0 <= a <= 2 ^ 64 - 64 -> 0 < h < 2 ^ 64 -> set_up lab_under gu -> set_up lab_head gh -> set_up lab_over go ->
  0 <= payload < 2 ^ 64 -> 0 <= n < 2 ^ 32 ->
  ((payload = 0 <-> n = 0) <-> init m a h payload n gu gh go <> None) /\
  forall m', init m a h payload n gu gh go = Some m' ->
    size m' a = n /\ host m' a = h /\ counter m' a = 1 /\ (n > 0 -> begin_ m' a = payload) /\ (n > 0 -> payload + n < 2 ^ 64 -> end_ m' a = payload + n) /\
    (is_solid m' a = true <-> payload = a + 48) /\
    check m' a = true /\ (ensure m' a = true <-> n > 0) /\
    (forall x, m' x <> m x -> a <= x < a + 48 \/ payload = a + 48 /\ payload + n <= x < payload + n + 8).
Proof.
  intros m a h payload n gu gh go B A H U G O P N. split.
  - unfold init. destruct (payload =? 0) eqn:E1, (n =? 0) eqn:E2; cbn [negb Bool.eqb]; rewrite ?Bool.andb_false_r, ?Bool.andb_true_r;
      replace (n >=? 0) with true by lia; split; intros Q; try discriminate; try lia; exfalso; auto.
  - intros m' I. assert (H' : 0 <= h < 2 ^ 64) by lia. destruct (init_made _ _ _ _ _ _ _ _ _ B A H' U G O P N I) as (M & C & F & F').
    assert (PZ : payload = 0 <-> n = 0).
    { unfold init in I. destruct (payload =? 0) eqn:E1, (n =? 0) eqn:E2; cbn [negb Bool.eqb] in I; rewrite ?Bool.andb_false_r in I; try discriminate; lia. }
    assert (Bg : n > 0 -> begin_ m' a = payload).
    { intros Np. unfold begin_. rewrite (md_off _ _ _ _ _ M). replace (payload =? 0) with false by lia. unfold u64. change (2 ^ 64) with 18446744073709551616 in *. lia. }
    destruct (made_check _ _ _ _ _ M ltac:(lia) ltac:(lia) ltac:(lia)) as [K1 K2].
    split; [apply M|]. split; [apply M|]. split; [exact C|]. split; [exact Bg|]. split; [|split; [|split; [exact K1|split; [rewrite K2; lia|]]]].
    + intros Np L. unfold end_. rewrite (Bg Np), (md_size _ _ _ _ _ M). unfold u64. apply Z.mod_small. lia.
    + unfold is_solid, at_inplace. rewrite (md_off _ _ _ _ _ M). destruct (payload =? 0) eqn:E; [lia|]. unfold u64. change (2 ^ 64) with 18446744073709551616 in *. lia.
    + intros x Hx. destruct (Z.eq_dec payload (a + 48)) as [Ep|Np].
      * destruct (Z_lt_ge_dec x a) as [L|L]; [exfalso; apply Hx, F; lia|]. destruct (Z_lt_ge_dec x (a + 48)); [left; lia|].
        destruct (Z_lt_ge_dec x (payload + n)) as [L2|L2]; [exfalso; apply Hx, F; lia|]. destruct (Z_lt_ge_dec x (payload + n + 8)); [right; lia|]. exfalso. apply Hx, F. lia.
      * left. destruct (Z_lt_ge_dec x a) as [L|L]; [exfalso; apply Hx, F'; [exact Np|lia]|]. destruct (Z_lt_ge_dec x (a + 48)); [lia|]. exfalso. apply Hx, F'; [exact Np|lia].
Qed.

(** *** The two checks.  [ensure] is [check] for buffers that are not empty. *)
Theorem C85_checks_agree : forall m a, bytes m -> (ensure m a = true <-> check m a = true /\ size m a > 0).
Proof.
  intros m a B. pose proof (word_range m (a + at_space) B) as R. fold (size m a) in R. unfold check, ensure.
  destruct (if is_solid m a then _ else true); rewrite ?Bool.andb_false_r, ?Bool.andb_true_r; [|intuition discriminate].
  destruct (guard_ok m (a + at_head) lab_head); rewrite ?Bool.andb_false_r, ?Bool.andb_true_r; [|intuition discriminate].
  destruct (guard_ok m (a + at_under) lab_under); rewrite ?Bool.andb_false_r, ?Bool.andb_true_r; [|intuition discriminate]. lia.
Qed.
(** An empty buffer can be made and passes [check], never [ensure]; its payload begins at its own header. *)
Theorem C85_empty_refuted : forall m a h gu gh go m',
  bytes m -> 0 <= a <= 2 ^ 64 - 64 -> 0 < h < 2 ^ 64 -> set_up lab_under gu -> set_up lab_head gh -> set_up lab_over go ->
  init m a h 0 0 gu gh go = Some m' -> check m' a = true /\ ensure m' a = false /\ begin_ m' a = a.
Proof.
  intros m a h gu gh go m' B A H U G O I. assert (H' : 0 <= h < 2 ^ 64) by lia. destruct (init_made m a h 0 0 gu gh go m' B A H' U G O ltac:(lia) ltac:(lia) I) as (M & C & _).
  destruct (made_check _ _ _ _ _ M ltac:(lia) ltac:(lia) ltac:(lia)) as [K1 K2]. split; [exact K1|]. split; [exact K2|].
  unfold begin_. rewrite (md_off _ _ _ _ _ M). cbn [Z.eqb]. unfold u64. rewrite Z.add_0_r. apply Z.mod_small. lia.
Qed.
(** A payload of 2^32 bytes or more is accepted and its length is cut. *)
Theorem C85_long_refuted : forall m a h payload n gu gh go m', payload <> a + 48 ->
  2 ^ 32 <= n -> init m a h payload n gu gh go = Some m' -> size m' a = n mod 2 ^ 32 /\ size m' a < n.
Proof.
  intros m a h payload n gu gh go m' NS N I. assert (E : size m' a = n mod 2 ^ 32); [|split; [exact E|rewrite E; change (2 ^ 32) with 4294967296 in *; lia]].
  unfold init in I. destruct (_ && _); [|discriminate]. cbv zeta in I. unfold at_space, at_host, at_ref, at_offset, at_under, at_head, at_inplace in I.
  replace (payload =? a + 48) with false in I by lia. injection I as <-. unfold size, at_space.
  rewrite (word_frame (put_word m (a + 24) (u32 n))).
  - rewrite word_put. unfold u32. apply Z.mod_mod. lia.
  - intros x Hx. rewrite !put_guard_other, put_dword_other, put_word_other, put_dword_other by lia. reflexivity.
Qed.

(** The length of a payload kept apart is a size_t: from 2^63 bytes on it is refused (it is negative as
    a ptrdiff_t), below that it is accepted exactly when payload and length are both there or both not. *)
Theorem C85_apart : forall m a h payload n gu gh go, 0 <= n < 2 ^ 64 ->
  (init_apart m a h payload n gu gh go <> None <-> n < 2 ^ 63 /\ (payload = 0 <-> n = 0)) /\
  (n < 2 ^ 63 -> init_apart m a h payload n gu gh go = init m a h payload n gu gh go).
Proof.
  intros m a h payload n gu gh go N. unfold init_apart.
  assert (S : sgn 64 n = if n <? 2 ^ 63 then n else n - 2 ^ 64).
  { unfold sgn. change (2 ^ (64 - 1)) with (2 ^ 63). rewrite Z.mod_small by lia. destruct (n <? 2 ^ 63); reflexivity. }
  rewrite S. clear S. change (2 ^ 63) with 9223372036854775808 in *. change (2 ^ 64) with 18446744073709551616 in *.
  destruct (n <? 9223372036854775808) eqn:E; (split; [|intros L; try reflexivity; lia]).
  - unfold init. replace (n >=? 0) with true by lia. cbn [andb].
    destruct (payload =? 0) eqn:E1, (n =? 0) eqn:E2; cbn [negb Bool.eqb]; split; intros Q; try discriminate; try lia; exfalso; auto; lia.
  - unfold init. replace (n - 18446744073709551616 >=? 0) with false by lia. cbn [andb]. split; intros Q; [exfalso; auto|lia].
Qed.
Example C85_apart_case :
  init_apart (fun _ => 0) 4096 3 65536 (2 ^ 63) (1, 2) (1, 2) (1, 2) = None /\
  init_apart (fun _ => 0) 4096 3 65536 (2 ^ 63 - 1) (1, 2) (1, 2) (1, 2) <> None.
Proof. split; [reflexivity|]. apply C85_apart; lia. Qed.

(** ** Use *)
(** A sound buffer: as made, with any number of references.  It stays so whatever is written into
    its payload, however references come and go. *)
Definition sound (m : mem) (a h off n : Z) : Prop :=
  made m a h off n /\ 0 < h < 2 ^ 64 /\ 0 <= n < 2 ^ 32 /\ 0 <= a <= 2 ^ 64 - 64 /\ 1 <= counter m a.
Definition apart (a off n x : Z) : Prop := ~ (a <= x < a + 48) /\ (off = 48 -> ~ (a + 48 + n <= x < a + 48 + n + 8)).
Lemma made_frame m m' a h off n : made m a h off n -> bytes m' -> (forall x, ~ apart a off n x -> m' x = m x) -> made m' a h off n /\ counter m' a = counter m a.
Proof.
  intros M B F. assert (Hs : header_same m m' a). { intros x Hx. apply F. unfold apart. intros [N _]. lia. }
  split; [|apply counter_same; exact Hs]. constructor.
  - exact B.
  - rewrite (size_same m m' a Hs). apply M.
  - rewrite (host_same m m' a Hs). apply M.
  - rewrite (off_same m m' a Hs). apply M.
  - rewrite (guard_frame m m') by (intros; apply Hs; unfold at_head in *; lia). apply M.
  - rewrite (guard_frame m m') by (intros; apply Hs; unfold at_under in *; lia). apply M.
  - intros E. rewrite (guard_frame m m'); [apply M; exact E|]. intros x Hx. apply F. unfold apart. intros [_ N]. apply (N E). lia.
Qed.
Theorem C85_payload_is_free : forall m a h off n m', sound m a h off n -> bytes m' -> (forall x, m' x <> m x -> apart a off n x) ->
  sound m' a h off n /\ check m' a = check m a /\ ensure m' a = ensure m a /\ size m' a = size m a /\ begin_ m' a = begin_ m a /\ counter m' a = counter m a.
Proof.
  intros m a h off n m' (M & H & N & A & C) B F.
  assert (F' : forall x, ~ apart a off n x -> m' x = m x). { intros x Hx. destruct (Z.eq_dec (m' x) (m x)) as [E|E]; [exact E|exfalso; exact (Hx (F x E))]. }
  destruct (made_frame m m' a h off n M B F') as [M' C']. assert (Hs : header_same m m' a). { intros x Hx. apply F'. unfold apart. intros [Q _]. lia. }
  split; [repeat split; try lia; try apply M'; rewrite C'; lia|].
  destruct (made_check _ _ _ _ _ M ltac:(lia) ltac:(lia) ltac:(lia)) as [K1 K2]. destruct (made_check _ _ _ _ _ M' ltac:(lia) ltac:(lia) ltac:(lia)) as [K3 K4].
  split; [congruence|]. split; [congruence|]. split; [apply size_same, Hs|]. split; [|exact C']. unfold begin_. rewrite (off_same m m' a Hs). reflexivity.
Qed.
(** Any one byte changed in a guard is noticed: before the fields of the header, between them and the
    payload, and up to eight bytes behind a solid payload. *)
Theorem C85_one_byte_noticed : forall m a h off n x v, sound m a h off n -> 0 <= v < 256 -> v <> m x ->
  a <= x < a + 8 \/ a + 40 <= x < a + 48 \/ off = 48 /\ a + 48 + n <= x < a + 48 + n + 8 ->
  check (put m x v) a = false /\ ensure (put m x v) a = false.
Proof.
  intros m a h off n x v (M & H & N & A & C) V Nv X. pose proof (md_bytes _ _ _ _ _ M) as B.
  assert (K : check (put m x v) a = false).
  { unfold check. destruct X as [X|[X|[E X]]].
    - assert (G : guard_ok (put m x v) (a + at_head) lab_head = false) by (apply guard_byte; [exact B|apply M|unfold at_head; lia|exact V|exact Nv]).
      rewrite G, !Bool.andb_false_r. reflexivity.
    - assert (G : guard_ok (put m x v) (a + at_under) lab_under = false) by (apply guard_byte; [exact B|apply M|unfold at_under; lia|exact V|exact Nv]).
      rewrite G, !Bool.andb_false_r. reflexivity.
    - assert (Hs : header_same m (put m x v) a) by (intros y Hy; apply put_other; lia).
      unfold is_solid. rewrite (off_same _ _ _ Hs), (size_same _ _ _ Hs), (md_off _ _ _ _ _ M), (md_size _ _ _ _ _ M), E. cbn [Z.eqb].
      assert (G : guard_ok (put m x v) (a + at_inplace + n) lab_over = false) by (apply guard_byte; [exact B|apply M; exact E|unfold at_inplace; lia|exact V|exact Nv]).
      unfold at_inplace in *. change (48 =? 48) with true. cbv iota. rewrite G. apply Bool.andb_false_r. }
  split; [exact K|]. destruct (ensure (put m x v) a) eqn:E; [|reflexivity]. exfalso. apply C85_checks_agree in E; [|apply put_bytes, B]. destruct E. congruence.
Qed.
(** The fields themselves are not guarded: a wrong length, offset, owner or count can pass. *)
Definition lab_guard (lab : Z) : Z * Z := (305419896, mixup 305419896 lab).
Lemma lab_guards : set_up lab_under (lab_guard lab_under) /\ set_up lab_head (lab_guard lab_head) /\ set_up lab_over (lab_guard lab_over).
Proof. repeat split; exists 1%nat, 305419896; (split; [lia|vm_compute; reflexivity]). Qed.
Definition some_mem (h payload n : Z) : mem :=
  match init (fun _ => 0) 4096 h payload n (lab_guard lab_under) (lab_guard lab_head) (lab_guard lab_over) with Some m => m | None => fun _ => 0 end.
Theorem C85_fields_unguarded_refuted : forall m a h off n m', sound m a h off n -> bytes m' ->
  (forall x, m' x <> m x -> a + 8 <= x < a + 40) -> counter m' a > 0 -> host m' a <> 0 -> dword m' (a + at_offset) <> 48 -> check m' a = true.
Proof.
  intros m a h off n m' (M & H & N & A & C) B F C' H' O'.
  assert (F' : forall x, ~ (a + 8 <= x < a + 40) -> m' x = m x). { intros x Hx. destruct (Z.eq_dec (m' x) (m x)) as [E|E]; [exact E|exfalso; exact (Hx (F x E))]. }
  unfold check, is_solid, at_inplace. replace (dword m' (a + at_offset) =? 48) with false by lia.
  rewrite (guard_frame m m' (a + at_head)) by (intros; apply F'; unfold at_head in *; lia). rewrite (md_head _ _ _ _ _ M).
  rewrite (guard_frame m m' (a + at_under)) by (intros; apply F'; unfold at_under in *; lia). rewrite (md_under _ _ _ _ _ M).
  pose proof (word_range m' (a + at_space) B) as R. fold (size m' a) in R. lia.
Qed.
Definition foreign : mem := some_mem (8192 + 2) 65536 100.
Lemma foreign_made : made foreign 4096 (8192 + 2) 61440 100 /\ counter foreign 4096 = 1.
Proof.
  destruct lab_guards as (U & G & O). assert (Bz : bytes (fun _ => 0)) by (intros x; lia).
  assert (I : init (fun _ => 0) 4096 (8192 + 2) 65536 100 (lab_guard lab_under) (lab_guard lab_head) (lab_guard lab_over) = Some foreign) by reflexivity.
  destruct (init_made _ 4096 (8192 + 2) 65536 100 _ _ _ _ Bz ltac:(lia) ltac:(lia) U G O ltac:(lia) ltac:(lia) I) as (M & C & _). split; [exact M|exact C].
Qed.
Lemma foreign_sound : sound foreign 4096 (8192 + 2) 61440 100.
Proof. destruct foreign_made as [M C]. split; [exact M|]. lia. Qed.
Example C85_fields_case : let m' := put_word foreign (4096 + 24) 1000000 in
  check m' 4096 = true /\ size m' 4096 = 1000000 /\ size foreign 4096 = 100 /\ check (put foreign 4096 0) 4096 = false.
Proof. vm_compute. repeat split. Qed.

(** ** References *)
Lemma sgn_small x : - 2 ^ 31 <= x < 2 ^ 31 -> sgn 32 (u32 x) = x.
Proof.
  intros H. unfold sgn, u32. cbv zeta. rewrite Z.mod_mod by lia. change (32 - 1) with 31. change (2 ^ 31) with 2147483648 in *. change (2 ^ 32) with 4294967296.
  destruct (_ <? _) eqn:E; lia.
Qed.
Lemma set_counter_made m a h off n c : made m a h off n -> - 2 ^ 31 <= c < 2 ^ 31 ->
  made (set_counter m a c) a h off n /\ counter (set_counter m a c) a = c /\ (forall x, ~ (a + 28 <= x < a + 32) -> set_counter m a c x = m x).
Proof.
  intros M Cr. assert (F : forall x, ~ (a + 28 <= x < a + 32) -> set_counter m a c x = m x) by (intros x Hx; apply put_word_other; unfold at_ref; lia).
  split; [|split; [|exact F]].
  - constructor.
    + apply put_word_bytes, M.
    + unfold size. rewrite (word_frame m) by (intros; apply F; unfold at_space in *; lia). apply M.
    + unfold host. rewrite (dword_frame m) by (intros; apply F; unfold at_host in *; lia). apply M.
    + rewrite (dword_frame m) by (intros; apply F; unfold at_offset in *; lia). apply M.
    + rewrite (guard_frame m) by (intros; apply F; unfold at_head in *; lia). apply M.
    + rewrite (guard_frame m) by (intros; apply F; unfold at_under in *; lia). apply M.
    + intros E. pose proof (md_size _ _ _ _ _ M) as Sz. pose proof (word_range m (a + at_space) (md_bytes _ _ _ _ _ M)) as R. fold (size m a) in R.
      rewrite (guard_frame m) by (intros; apply F; lia). apply M, E.
  - unfold counter, set_counter, at_ref. rewrite word_put. assert (E : u32 (u32 c) = u32 c) by (unfold u32; apply Z.mod_mod; lia). rewrite E. apply sgn_small, Cr.
Qed.
Fixpoint references (k : nat) (m : mem) (a : Z) : mem := match k with O => m | S k => add_reference (references k m a) a end.
Fixpoint dropped (k : nat) (m : mem) (a : Z) : fate :=
  match k with O => Kept m | S k => match detach m a with Kept m => dropped k m a | f => f end end.
Lemma references_made m a h off n k : made m a h off n -> counter m a = 1 -> Z.of_nat k < 2 ^ 31 - 1 ->
  made (references k m a) a h off n /\ counter (references k m a) a = 1 + Z.of_nat k.
Proof.
  intros M C. induction k as [|k IH]; intros K; [split; [exact M|cbn [references]; lia]|]. destruct IH as [M1 C1]; [lia|]. cbn [references]. unfold add_reference.
  destruct (set_counter_made _ a h off n (counter (references k m a) a + 1) M1) as (M2 & C2 & _).
  { change (2 ^ 31) with 2147483648 in *. lia. }
  split; [exact M2|]. rewrite C2. lia.
Qed.
Lemma dropped_made k : forall m a h off n c, made m a h off n -> counter m a = c -> Z.of_nat k < c -> c < 2 ^ 31 ->
  exists m', dropped k m a = Kept m' /\ made m' a h off n /\ counter m' a = c - Z.of_nat k /\ (forall x, ~ (a + 28 <= x < a + 32) -> m' x = m x).
Proof.
  induction k as [|k IH]; intros m a h off n c M C K L.
  - exists m. split; [reflexivity|]. split; [exact M|]. split; [lia|auto].
  - cbn [dropped]. unfold detach. rewrite C. replace (c =? 1) with false by lia. change (2 ^ 31) with 2147483648 in *.
    destruct (set_counter_made m a h off n (c - 1) M) as (M2 & C2 & F2). { change (2 ^ 31) with 2147483648. lia. }
    rewrite C2. replace (c - 1 >? 0) with true by lia. destruct (IH _ a h off n (c - 1) M2 C2) as (m' & E & M' & C' & F'); [lia|lia|].
    exists m'. split; [exact E|]. split; [exact M'|]. split; [lia|]. intros x Hx. rewrite F' by exact Hx. apply F2, Hx.
Qed.
(** *** With [k] further references the buffer survives [k] releases, sound and with its bytes, and is
    given up by the one after them, to the allocator of its tag. *)
Theorem C85_counted : forall m a h off n k j, sound m a h off n -> counter m a = 1 -> Z.of_nat k < 2 ^ 31 - 1 -> (j <= k)%nat ->
  let m1 := references k m a in
  exists m', dropped j m1 a = Kept m' /\ sound m' a h off n /\ check m' a = true /\ counter m' a = 1 + Z.of_nat (k - j) /\
    (forall x, ~ (a + 28 <= x < a + 32) -> m' x = m x) /\
    is_alterable m' a = ((j =? k)%nat && negb (is_readonly m a)) /\
    (j = k -> detach m' a = release m' a).
Proof.
  intros m a h off n k j (M & H & N & A & _) C K J m1. destruct (references_made m a h off n k M C K) as [M1 C1]. fold m1 in M1, C1. change (2 ^ 31) with 2147483648 in *.
  destruct (dropped_made j m1 a h off n (1 + Z.of_nat k) M1 C1 ltac:(lia) ltac:(change (2 ^ 31) with 2147483648; lia)) as (m' & E & M' & C' & F').
  assert (F1 : forall x, ~ (a + 28 <= x < a + 32) -> m1 x = m x).
  { intros x Hx. unfold m1. clear - Hx. induction k as [|k IH]; [reflexivity|]. cbn [references]. unfold add_reference, set_counter. rewrite put_word_other by (unfold at_ref; lia). exact IH. }
  assert (Ct : counter m' a = 1 + Z.of_nat (k - j)) by lia.
  exists m'. split; [exact E|]. split; [split; [exact M'|]; lia|]. split; [apply (made_check _ _ _ _ _ M'); lia|]. split; [exact Ct|].
  split; [intros x Hx; rewrite F' by exact Hx; apply F1, Hx|]. split.
  - unfold is_alterable, is_readonly. rewrite (md_host _ _ _ _ _ M'), (md_host _ _ _ _ _ M), Ct. destruct (j =? k)%nat eqn:Ej; [apply Nat.eqb_eq in Ej|apply Nat.eqb_neq in Ej];
    [replace (1 + Z.of_nat (k - j) =? 1) with true by lia|replace (1 + Z.of_nat (k - j) =? 1) with false by lia]; reflexivity.
  - intros ->. unfold detach. rewrite Ct. replace (1 + Z.of_nat (k - k) =? 1) with true by lia. reflexivity.
Qed.
(** ** The end *)
Lemma land2 h : 0 <= h -> (Z.land h 2 =? 0) = ((h / 2) mod 2 =? 0).
Proof.
  intros H. assert (E : Z.land h 2 = 2 * ((h / 2) mod 2)).
  { replace h with (2 * (h / 2) + h mod 2) at 1 by lia. assert (C : h mod 2 = 0 \/ h mod 2 = 1) by lia. set (k := h / 2).
    assert (L : forall r, r = 0 \/ r = 1 -> Z.land (2 * k + r) 2 = 2 * Z.land k 1).
    { intros r Hr. change 2 with (2 * 1) at 2. apply Z.bits_inj'. intros i Hi. rewrite Z.land_spec. destruct (Z.eq_dec i 0) as [-> |N].
      - rewrite (Z.bit0_odd (2 * 1)), (Z.bit0_odd (2 * Z.land k 1)), !Z.odd_mul. cbn. apply Bool.andb_false_r.
      - replace i with (Z.succ (i - 1)) by lia. rewrite !Z.testbit_even_succ by lia. destruct Hr as [-> | ->];
        [rewrite Z.add_0_r, Z.testbit_even_succ by lia|rewrite Z.testbit_odd_succ by lia]; rewrite Z.land_spec; reflexivity. }
    rewrite (L _ C). change 1 with (2 ^ 1 - 1). rewrite land_mask by lia. reflexivity. }
  rewrite E. lia.
Qed.
Lemma local_round h : 0 <= h < 2 ^ 64 -> tag_local_allot h = h - h mod 16.
Proof.
  intros H. unfold tag_local_allot. replace h with (h / 16 * 2 ^ 4 + h mod 16) at 1 by (change (2 ^ 4) with 16; lia). change 16 with (2 ^ 4) at 3.
  rewrite land_round by (change (2 ^ 4) with 16; lia). change (2 ^ 4) with 16. lia.
Qed.
Lemma drown_frame m a h off n : sound m a h off n -> forall x,
  (x < a \/ a + 8 <= x < a + 28 \/ a + 32 <= x < a + 40 \/ a + 48 <= x) -> (off = 48 -> x < a + 48 + n \/ a + 48 + n + 8 <= x) -> drown m a x = m x.
Proof.
  intros (M & H & N & A & C) x X O. unfold drown. cbv zeta. unfold at_head, at_under, at_inplace.
  set (m3 := put_guard (put_guard (set_counter m a (-1)) (a + 0) drowned_guard) (a + 40) drowned_guard).
  assert (E3 : forall y, y < a \/ a + 8 <= y < a + 28 \/ a + 32 <= y < a + 40 \/ a + 48 <= y -> m3 y = m y).
  { intros y Y. unfold m3. rewrite !put_guard_other by lia. unfold set_counter, at_ref. rewrite put_word_other by lia. reflexivity. }
  assert (Sz : size m3 a = n). { unfold size, at_space. rewrite (word_frame m) by (intros; apply E3; lia). apply M. }
  assert (So : is_solid m3 a = (off =? 48)). { unfold is_solid, at_offset, at_inplace. rewrite (dword_frame m) by (intros; apply E3; lia). pose proof (md_off _ _ _ _ _ M) as Q. unfold at_offset in Q. rewrite Q. reflexivity. }
  rewrite So, Sz. destruct (off =? 48) eqn:E; [|apply E3, X]. rewrite put_guard_other by lia. apply E3, X.
Qed.
Lemma drown_facts m a h off n : sound m a h off n ->
  bytes (drown m a) /\ host (drown m a) a = h /\ size (drown m a) a = n /\ counter (drown m a) a = -1 /\
  guard_ok (drown m a) (a + at_head) lab_head = false /\ guard_ok (drown m a) (a + at_under) lab_under = false.
Proof.
  intros S0. pose proof (drown_frame m a h off n S0) as F. destruct S0 as (M & H & N & A & C).
  split; [|split; [|split; [|]]].
  - unfold drown. cbv zeta. assert (B3 : bytes (put_guard (put_guard (set_counter m a (-1)) (a + at_head) drowned_guard) (a + at_under) drowned_guard)).
    { repeat apply put_guard_bytes. apply put_word_bytes. apply M. }
    destruct (is_solid _ a); [apply put_guard_bytes|]; exact B3.
  - unfold host, at_host. rewrite (dword_frame m) by (intros; apply F; lia). apply M.
  - unfold size, at_space. rewrite (word_frame m) by (intros; apply F; lia). apply M.
  - unfold drown. cbv zeta. unfold at_head, at_under, at_inplace.
    set (m3 := put_guard (put_guard (set_counter m a (-1)) (a + 0) drowned_guard) (a + 40) drowned_guard).
    assert (Sz : 0 <= size m3 a). { unfold size. apply word_range. unfold m3. repeat apply put_guard_bytes. apply put_word_bytes, M. }
    set (m4 := if is_solid m3 a then _ else m3).
    assert (E4 : forall y, y < a + 48 -> m4 y = m3 y). { intros y Y. unfold m4. destruct (is_solid m3 a); [apply put_guard_other; lia|reflexivity]. }
    split; [|split].
    + unfold counter, at_ref. rewrite (word_frame (set_counter m a (-1))).
      * unfold set_counter, at_ref. rewrite word_put. reflexivity.
      * intros x Hx. rewrite E4 by lia. unfold m3. rewrite !put_guard_other by lia. reflexivity.
    + rewrite (guard_frame m3) by (intros; apply E4; lia). unfold m3. rewrite (guard_frame (put_guard (set_counter m a (-1)) (a + 0) drowned_guard)) by (intros; apply put_guard_other; lia).
      rewrite guard_put by (vm_compute; split; [discriminate|reflexivity]). apply C49_drowned_guard_rejected.
    + rewrite (guard_frame m3) by (intros; apply E4; lia). unfold m3. rewrite guard_put by (vm_compute; split; [discriminate|reflexivity]). apply C49_drowned_guard_rejected.
Qed.
(** *** Giving up.  What happens is told by the tag alone: the flag of local tags and whether an address
    is left beside the flags.  The length is kept for the allocator, the payload is not touched, and
    from then on no check accepts the header, whatever is made of its fields. *)
Theorem C85_given_up : forall m a h off n, sound m a h off n ->
  release m a = (if (h / 2) mod 2 =? 0 then Terminated else if h <? 16 then Destroyed (drown m a) else Repaid (h - h mod 16) (drown m a)) /\
  host (drown m a) a = h /\ size (drown m a) a = n /\
  (forall x, apart a off n x -> drown m a x = m x) /\
  (forall m', (forall x, a <= x < a + 8 -> m' x = drown m a x) \/ (forall x, a + 40 <= x < a + 48 -> m' x = drown m a x) ->
     check m' a = false /\ ensure m' a = false).
Proof.
  intros m a h off n S0. destruct (drown_facts m a h off n S0) as (B & Ho & Sz & Ct & G1 & G2). pose proof (drown_frame m a h off n S0) as F. destruct S0 as (M & H & N & A & C).
  split; [|split; [exact Ho|split; [exact Sz|split]]].
  - unfold release. cbv zeta. unfold is_localweak. rewrite Ho, land2, local_round by lia. destruct ((h / 2) mod 2 =? 0) eqn:E; cbn [negb]; [reflexivity|].
    destruct (h <? 16) eqn:E2; [reflexivity|]. replace (h - h mod 16 =? 0) with false by lia. reflexivity.
  - intros x [X1 X2]. apply F; [lia|]. intros E. specialize (X2 E). lia.
  - intros m' [Q|Q].
    + assert (G : guard_ok m' (a + at_head) lab_head = false) by (rewrite (guard_frame (drown m a)); [exact G1|intros; apply Q; unfold at_head in *; lia]).
      unfold check, ensure. rewrite G, !Bool.andb_false_r. split; reflexivity.
    + assert (G : guard_ok m' (a + at_under) lab_under = false) by (rewrite (guard_frame (drown m a)); [exact G2|intros; apply Q; unfold at_under in *; lia]).
      unfold check, ensure. rewrite G, !Bool.andb_false_r. split; reflexivity.
Qed.
(** So no buffer of a shared allocator can be given up in this build: the last release ends the
    process, after the header has been made unusable.  This is every [buffer_indirect]. *)
Theorem C85_shared_release_refuted : forall m a id depot crate flags off n,
  0 <= flags < 16 -> Z.land flags 2 = 0 -> 0 <= id < 2 ^ 28 -> 0 <= depot < 2 ^ 16 -> 0 <= crate < 2 ^ 16 ->
  sound m a (tag_of_parts id depot crate flags) off n -> counter m a = 1 -> detach m a = Terminated.
Proof.
  intros m a id depot crate flags off n F F2 I D Cr S0 C. unfold detach. rewrite C. cbn [Z.eqb Pos.eqb]. destruct (C85_given_up _ _ _ _ _ S0) as [-> _].
  destruct (C44_parts_kept id depot crate flags F I D Cr) as (E & _ & _ & _ & R). cbv zeta in E, R. set (t := tag_of_parts id depot crate flags) in *.
  unfold tag_flags in E. change 15 with (2 ^ 4 - 1) in E. rewrite land_mask in E by lia. change (2 ^ 4) with 16 in E.
  assert (G : (flags / 2) mod 2 = 0). { pose proof (land2 flags ltac:(lia)) as Q. rewrite F2 in Q. cbn [Z.eqb] in Q. lia. }
  replace ((t / 2) mod 2 =? 0) with true by lia. reflexivity.
Qed.
Theorem C85_local_release : forall m a allot readonly off n, 16 <= allot < 2 ^ 64 -> allot mod 16 = 0 ->
  sound m a (tag_of_local allot readonly) off n -> counter m a = 1 -> detach m a = Repaid allot (drown m a).
Proof.
  intros m a allot readonly off n R Al S0 C. unfold detach. rewrite C. cbn [Z.eqb Pos.eqb]. destruct (C85_given_up _ _ _ _ _ S0) as [-> _].
  destruct (C44_local_kept allot readonly ltac:(lia) Al) as (E & E2 & Rt). cbv zeta in E, E2, Rt. set (t := tag_of_local allot readonly) in *.
  rewrite (local_round t Rt) in E. unfold tag_flags in E2. change 15 with (2 ^ 4 - 1) in E2. rewrite land_mask in E2 by lia. change (2 ^ 4) with 16 in E2.
  replace ((t / 2) mod 2 =? 0) with false by (destruct readonly; lia). replace (t <? 16) with false by lia. rewrite E. reflexivity.
Qed.

(** ** From borrowing to repaying *)
Lemma local_value std ro : 0 <= std < 2 ^ 64 -> std mod 16 = 0 -> tag_of_local std ro = std + (if ro then 3 else 2).
Proof.
  intros R A. unfold tag_of_local. replace std with (std / 16 * 2 ^ 4) at 1 by (change (2 ^ 4) with 16; lia). change (Z.lor 2 1) with 3.
  rewrite lor_pack by (destruct ro; lia). change (2 ^ 4) with 16. lia.
Qed.
(** *** A buffer borrowed through the tag of the standard allocator (or without a tag) is sound, alterable,
    at least as long as asked for, lies inside the block taken from the heap, and its last release
    hands that very block back. *)
Theorem C85_lent : forall m std tag wanna block leastwise gu gh go,
  bytes m -> 16 <= std < 2 ^ 64 -> std mod 16 = 0 -> tag = 0 \/ (exists ro, tag = tag_of_local std ro) ->
  1 <= wanna <= 524272 -> 0 <= block <= 2 ^ 63 -> set_up lab_under gu -> set_up lab_head gh -> set_up lab_over go ->
  exists m' n, lend m std tag wanna block leastwise gu gh go = Lent (block + 8) m' /\
    sound m' (block + 8) (std + 2) 48 n /\ wanna <= n < wanna + 64 /\ is_alterable m' (block + 8) = true /\ is_localweak m' (block + 8) = true /\
    begin_ m' (block + 8) = block + 56 /\ check m' (block + 8) = true /\ ensure m' (block + 8) = true /\
    detach m' (block + 8) = Repaid std (drown m' (block + 8)) /\
    (forall x, m' x <> m x -> block <= x < block + snd (repay 8 (block + 8) n)) /\ fst (repay 8 (block + 8) n) = block /\
    block + 56 + n + 16 <= block + snd (repay 8 (block + 8) n).
Proof.
  intros m std tag wanna block leastwise gu gh go B R Al T W Bl U G O. destruct (proj2 (C25_granted_iff_in_range 8 wanna block) ltac:(lia)) as [b Hb].
  destruct (borrow_ok 8 wanna block b (or_intror eq_refl) ltac:(lia) Hb) as (W1 & W2 & D & Ad & I1 & I2 & Rp). pose proof Hb as Hb'.
  unfold borrow in Hb'. destruct (_ || _); [discriminate|]. cbv zeta in Hb'.
  assert (Eb : b_block b = block) by (injection Hb' as <-; reflexivity).
  assert (Es : b_space b = u32 (b_bytes b - 64)) by (injection Hb' as <-; reflexivity).
  assert (Eg : 0 <= b_bytes b < 2 ^ 64) by (injection Hb' as <-; cbn [b_bytes]; unfold u64; apply Z.mod_pos_bound; reflexivity). clear Hb'.
  assert (Ea : b_addr b = block + 8) by lia. rewrite Eb, Ea in *. change (inplace_offset 8) with 48 in D.
  set (n := b_space b) in *. change (2 ^ 64) with 18446744073709551616 in *. change (2 ^ 63) with 9223372036854775808 in *.
  assert (Vt : tag_of_local std false = std + 2) by (rewrite local_value by lia; reflexivity).
  assert (Hl : forall ro, let t := tag_of_local std ro in t <> 0 /\ Z.land (tag_flags t) 2 <> 0 /\ tag_local_allot t = std).
  { intros ro t. destruct (C44_local_kept std ro ltac:(change (2 ^ 64) with 18446744073709551616; lia) Al) as (E1 & E2 & E3). cbv zeta in E1, E2. fold t in E1, E2, E3. rewrite E1, E2.
    split; [|split; [destruct ro; vm_compute; discriminate|reflexivity]]. intros Z0. rewrite Z0 in E1. vm_compute in E1. lia. }
  assert (Hn : n = b_bytes b - 64).
  { rewrite Es. unfold u32. change (2 ^ 32) with 4294967296. apply Z.mod_small. enough (64 <= b_bytes b < 4294967296) by lia. clear - Hb W.
    unfold borrow in Hb. destruct (_ || _); [discriminate|]. cbv zeta in Hb. injection Hb as <-. cbn [b_bytes].
    unfold ceil. change (space_overhead 8) with 64. change (8 * 2 + 8 * 2) with 32. change (2 ^ 64 - 64) with (2 ^ 64 - 2 ^ 6).
    assert (E1 : u64 (wanna + 64 + 32) = wanna + 96) by (unfold u64; change (2 ^ 64) with 18446744073709551616; lia). rewrite E1.
    assert (E2 : u64 (wanna + 96 + 64 - 1) = wanna + 159) by (unfold u64; change (2 ^ 64) with 18446744073709551616; lia). rewrite E2.
    rewrite land_round by (try lia; change (2 ^ 64) with 18446744073709551616; lia).
    change (2 ^ 6) with 64. unfold u64. change (2 ^ 64) with 18446744073709551616. lia. }
  set (a := block + 8) in *.
  destruct (init m a (std + 2) (a + 48) n gu gh go) as [m'|] eqn:I.
  2:{ exfalso. unfold init in I. replace (a + 48 =? 0) with false in I by lia. replace (n =? 0) with false in I by lia. replace (n >=? 0) with true in I by lia. discriminate. }
  assert (Rn : 0 <= n < 2 ^ 32) by (change (2 ^ 32) with 4294967296; lia).
  assert (Ra : 0 <= a <= 2 ^ 64 - 64) by (change (2 ^ 64) with 18446744073709551616; lia).
  assert (Rh : 0 <= std + 2 < 2 ^ 64) by (change (2 ^ 64) with 18446744073709551616; lia).
  assert (Rp2 : 0 <= a + 48 < 2 ^ 64) by (change (2 ^ 64) with 18446744073709551616; lia).
  destruct (init_made m a (std + 2) (a + 48) n gu gh go m' B Ra Rh U G O Rp2 Rn I) as (M & C & F & _).
  replace (a + 48 =? 0) with false in M by lia. replace (a + 48 - a) with 48 in M by lia. change (u64 48) with 48 in M.
  assert (S0 : sound m' a (std + 2) 48 n). { split; [exact M|]. lia. }
  destruct (made_check _ _ _ _ _ M ltac:(lia) ltac:(lia) ltac:(lia)) as [K1 K2].
  exists m', n. split; [|split; [exact S0|split; [lia|]]].
  - assert (L : forall t, t <> 0 -> Z.land (tag_flags t) 2 <> 0 -> tag_local_allot t = std -> lend m std t wanna block leastwise gu gh go = Lent a m').
    { intros t T0 T1 T2. unfold lend. replace (t =? 0) with false by lia. cbv zeta. replace (Z.land (tag_flags t) 2 =? 0) with false by lia. rewrite T2.
      replace (std =? 0) with false by lia. rewrite Z.eqb_refl. cbn [negb]. rewrite Hb, Ea. unfold init_solid. rewrite Vt. change (space_overhead 8) with 64. unfold at_inplace.
      replace (sgn 64 (u64 (b_bytes b - 64))) with n.
      - rewrite I. rewrite (md_size _ _ _ _ _ M). replace (n <? wanna) with false by lia. rewrite Bool.andb_false_r. reflexivity.
      - rewrite <- Hn. unfold sgn, u64. rewrite Z.mod_mod by lia. change (2 ^ 64) with 18446744073709551616. rewrite Z.mod_small by lia. cbv zeta. change (2 ^ (64 - 1)) with 9223372036854775808.
        replace (n <? 9223372036854775808) with true by lia. reflexivity. }
    destruct T as [-> |[ro ->]].
    + destruct (Hl false) as (T0 & T1 & T2). specialize (L _ T0 T1 T2). unfold lend in *. rewrite (proj2 (Z.eqb_neq _ _) T0) in L. exact L.
    + destruct (Hl ro) as (T0 & T1 & T2). exact (L _ T0 T1 T2).
  - assert (Hm : Z.land (std + 2) 1 = 0). { change 1 with (2 ^ 1 - 1). rewrite land_mask by lia. change (2 ^ 1) with 2. lia. }
    split; [unfold is_alterable, is_readonly; rewrite C, (md_host _ _ _ _ _ M), Hm; reflexivity|].
    split; [unfold is_localweak; rewrite (md_host _ _ _ _ _ M), land2 by lia; lia|].
    split; [unfold begin_; rewrite (md_off _ _ _ _ _ M); unfold u64; rewrite Z.mod_small by lia; unfold a; lia|].
    split; [exact K1|]. split; [rewrite K2; lia|]. split.
    { apply (C85_local_release m' a std false 48 n); [change (2 ^ 64) with 18446744073709551616; lia|exact Al|rewrite Vt; exact S0|exact C]. }
    rewrite Rp. cbn [fst snd]. split; [|split; [reflexivity|unfold a in *; lia]].
    intros x Hx. destruct (Z_lt_ge_dec x a) as [L|L]; [exfalso; apply Hx, F; lia|]. destruct (Z_lt_ge_dec x (a + 48 + n + 8)) as [L2|L2]; [lia|]. exfalso. apply Hx, F. lia.
Qed.
(** The flags of the tag are not passed on: a read-only tag gives a buffer that may be changed. *)
Theorem C85_flags_lost_refuted : forall m std wanna block leastwise gu gh go,
  bytes m -> 16 <= std < 2 ^ 64 -> std mod 16 = 0 -> 1 <= wanna <= 524272 -> 0 <= block <= 2 ^ 63 -> set_up lab_under gu -> set_up lab_head gh -> set_up lab_over go ->
  tag_flags (tag_of_local std true) = 3 /\
  exists a m', lend m std (tag_of_local std true) wanna block leastwise gu gh go = Lent a m' /\ is_readonly m' a = false /\ is_alterable m' a = true.
Proof.
  intros m std wanna block leastwise gu gh go B R Al W Bl U G O. split; [apply (C44_local_kept std true ltac:(lia) Al)|].
  destruct (C85_lent m std (tag_of_local std true) wanna block leastwise gu gh go B R Al (or_intror (ex_intro _ true eq_refl)) W Bl U G O) as (m' & n & E & _ & _ & K & _).
  exists (block + 8), m'. split; [exact E|]. split; [|exact K]. unfold is_alterable in K. apply andb_prop in K. destruct K as [_ K]. destruct (is_readonly m' (block + 8)); [discriminate|reflexivity].
Qed.
(** No tag of a shared allocator, and none without an address, can be borrowed from. *)
Theorem C85_no_allocator : forall m std tag wanna block leastwise gu gh go, 0 < tag < 2 ^ 64 -> (tag / 2) mod 2 = 0 \/ tag < 16 ->
  lend m std tag wanna block leastwise gu gh go = NoAllot.
Proof.
  intros m std tag wanna block leastwise gu gh go T C. unfold lend. replace (tag =? 0) with false by lia. cbv zeta.
  assert (F : tag_flags tag = tag mod 16). { unfold tag_flags. change 15 with (2 ^ 4 - 1). rewrite land_mask by lia. reflexivity. }
  rewrite F, land2 by lia. destruct ((tag mod 16 / 2) mod 2 =? 0) eqn:E; [reflexivity|]. destruct C as [C|C]; [lia|].
  rewrite local_round by lia. replace (tag - tag mod 16 =? 0) with true by lia. reflexivity.
Qed.

(** ** Probing pages *)
Lemma probes_list fuel : forall addr bytes step k, 0 < step -> 0 <= k -> (Z.to_nat (bytes - k * step) <= fuel)%nat ->
  probes fuel addr bytes step (k * step) = map (fun i => addr + (k + Z.of_nat i) * step) (seq 0 (Z.to_nat ((bytes - k * step + step - 1) / step))).
Proof.
  induction fuel as [|fuel IH]; intros addr bytes step k S0 K L.
  - assert (bytes - k * step <= 0) by lia. replace (Z.to_nat _) with 0%nat; [reflexivity|]. symmetry.
    assert ((bytes - k * step + step - 1) / step < 1) by (apply Z.div_lt_upper_bound; lia). lia.
  - cbn [probes]. destruct (k * step <? bytes) eqn:E.
    + assert (Q : Z.to_nat ((bytes - k * step + step - 1) / step) = S (Z.to_nat ((bytes - (k + 1) * step + step - 1) / step))).
      { replace (bytes - k * step + step - 1) with (1 * step + (bytes - (k + 1) * step + step - 1)) by lia. rewrite Z.div_add_l by lia.
        assert (0 <= (bytes - (k + 1) * step + step - 1) / step) by (apply Z.div_pos; lia). lia. }
      rewrite Q. cbn [seq map]. f_equal; [f_equal; lia|]. replace (k * step + step) with ((k + 1) * step) by lia. rewrite IH by nia.
      rewrite <- seq_shift, map_map. apply map_ext. intros i. f_equal. lia.
    + replace (Z.to_nat _) with 0%nat; [reflexivity|]. symmetry. assert ((bytes - k * step + step - 1) / step < 1) by (apply Z.div_lt_upper_bound; lia). lia.
Qed.
Lemma probe_pages_list addr bytes step : 0 < step -> probe_pages addr bytes step = map (fun i => addr + Z.of_nat i * step) (seq 0 (Z.to_nat ((bytes + step - 1) / step))).
Proof.
  intros S0. unfold probe_pages. pose proof (probes_list (Z.to_nat bytes) addr bytes step 0 S0 ltac:(lia) ltac:(lia)) as Q. rewrite Z.mul_0_l, Z.sub_0_r in Q. rewrite Q. reflexivity.
Qed.
(** Only bytes of the range are touched, at most one in a page, beginning with the first; every page of the
    range is touched exactly when the range does not spill over a page boundary more than once per step. *)
Theorem C85_probes : forall addr bytes step, 0 <= addr -> 0 < bytes -> 0 < step ->
  let l := probe_pages addr bytes step in
  (forall x, In x l -> addr <= x < addr + bytes) /\ NoDup (map (fun x => x / step) l) /\ hd_error l = Some addr /\
  ((forall p, addr / step <= p <= (addr + bytes - 1) / step -> exists x, In x l /\ x / step = p) <->
   addr mod step + (bytes - 1) mod step < step).
Proof.
  intros addr bytes step A B S0 l. unfold l. rewrite probe_pages_list by exact S0. set (N := Z.to_nat ((bytes + step - 1) / step)).
  assert (EN : (bytes + step - 1) / step = (bytes - 1) / step + 1). { replace (bytes + step - 1) with (1 * step + (bytes - 1)) by lia. rewrite Z.div_add_l by lia. lia. }
  pose proof (Z.div_mod (bytes - 1) step ltac:(lia)) as D1. pose proof (Z.mod_pos_bound (bytes - 1) step S0) as R1.
  pose proof (Z.div_mod addr step ltac:(lia)) as D2. pose proof (Z.mod_pos_bound addr step S0) as R2.
  set (q := (bytes - 1) / step) in *. set (r := (bytes - 1) mod step) in *. set (p0 := addr / step) in *. set (r0 := addr mod step) in *.
  assert (Q0 : 0 <= q) by (apply Z.div_pos; lia).
  assert (HN : Z.of_nat N = q + 1) by (unfold N; lia).
  assert (Pg : forall i, (addr + i * step) / step = p0 + i). { intros i. rewrite Z.div_add by lia. reflexivity. }
  split; [|split; [|split]].
  - intros x Hx. apply in_map_iff in Hx. destruct Hx as (i & <- & Hi). apply in_seq in Hi. nia.
  - rewrite map_map. apply FinFun.Injective_map_NoDup; [|apply seq_NoDup]. intros i j E. rewrite !Pg in E. lia.
  - assert (N <> 0%nat) by lia. destruct N as [|N']; [lia|]. cbn [seq map hd_error]. f_equal. lia.
  - assert (El : (addr + bytes - 1) / step = p0 + q + (r0 + r) / step).
    { replace (addr + bytes - 1) with ((p0 + q) * step + (r0 + r)) by lia. rewrite Z.div_add_l by lia. reflexivity. }
    rewrite El. split.
    + intros H. destruct (Z_lt_ge_dec (r0 + r) step) as [|G]; [assumption|exfalso].
      assert (E1 : (r0 + r) / step = 1). { symmetry. apply Z.div_unique with (r := r0 + r - step); lia. }
      destruct (H (p0 + q + 1) ltac:(lia)) as (x & Hx & Ex). apply in_map_iff in Hx. destruct Hx as (i & <- & Hi). apply in_seq in Hi. rewrite Pg in Ex. lia.
    + intros G p Hp. rewrite (Z.div_small (r0 + r)) in Hp by lia. exists (addr + Z.of_nat (Z.to_nat (p - p0)) * step). split; [|rewrite Pg; lia].
      apply in_map_iff. exists (Z.to_nat (p - p0)). split; [reflexivity|]. apply in_seq. lia.
Qed.
(** So the last page of the payload of a buffer may go unprobed. *)
Theorem C85_last_page_refuted : exists addr bytes, 0 <= addr /\ 0 < bytes /\ probe_pages addr bytes 4096 = [addr] /\ (addr + bytes - 1) / 4096 = addr / 4096 + 1.
Proof. exists (4096 * 3 - 56 + 48), 100. vm_compute. repeat split; discriminate. Qed.
(** Taking the pages beforehand touches the same bytes, in batches, and stops at the first batch in which a
    page cannot be had. *)
Lemma batches_concat n : (0 < n)%nat -> forall fuel l, (length l <= fuel)%nat -> concat (batches fuel n l) = l /\ Forall (fun b => (1 <= length b <= n)%nat) (batches fuel n l).
Proof.
  intros N. induction fuel as [|fuel IH]; intros l L.
  - destruct l; [cbn; auto|cbn in L; lia].
  - destruct l as [|x l]; [cbn; auto|]. change (batches (S fuel) n (x :: l)) with (firstn n (x :: l) :: batches fuel n (skipn n (x :: l))).
    destruct (IH (skipn n (x :: l))) as [E F]. { rewrite skipn_length. cbn [length] in *. lia. }
    cbn [concat]. rewrite E, firstn_skipn. split; [reflexivity|]. constructor; [|exact F]. rewrite firstn_length. cbn [length] in *. lia.
Qed.
Theorem C85_prefault : forall fault iov_max addr bytes step, (0 < iov_max)%nat ->
  let l := probe_pages addr bytes step in let (ok, done) := prefault fault iov_max addr bytes step in
  (ok = true <-> existsb fault l = false) /\ (ok = true -> concat done = l) /\ (exists rest, l = concat done ++ rest) /\
  Forall (fun b => (1 <= length b <= iov_max)%nat) done /\
  (ok = false -> exists good last, done = good ++ [last] /\ existsb fault (concat good) = false /\ existsb fault last = true).
Proof.
  intros fault iov_max addr bytes step P l. unfold prefault. cbv zeta. fold l. destruct (batches_concat iov_max P (length l) l (le_n _)) as [E F].
  set (bs := batches (length l) iov_max l) in *. rewrite <- E. clear E. clearbody bs. clear l. induction bs as [|b bs IH].
  - cbn. repeat split; auto; try discriminate. exists []. reflexivity.
  - inversion F as [|? ? F1 F2]; subst. specialize (IH F2). cbn [feed concat]. rewrite existsb_app. destruct (existsb fault b) eqn:Eb.
    + split; [split; discriminate|]. split; [discriminate|]. split; [exists (concat bs); cbn [concat]; rewrite app_nil_r; reflexivity|]. split; [constructor; [exact F1|constructor]|].
      intros _. exists [], b. auto.
    + cbn [orb]. destruct (feed fault bs) as [ok done]. destruct IH as (I1 & I2 & (rest & I3) & I4 & I5). split; [exact I1|]. split; [intros K; cbn [concat]; rewrite I2 by exact K; reflexivity|].
      split; [exists rest; cbn [concat]; rewrite <- app_assoc, <- I3; reflexivity|]. split; [constructor; assumption|]. intros K. destruct (I5 K) as (good & la & -> & G1 & G2).
      exists (b :: good), la. split; [reflexivity|]. split; [cbn [concat]; rewrite existsb_app, Eb; exact G1|exact G2].
Qed.

(** ** Cases *)
Example C85_lent_case : exists m', lend (fun _ => 7) 8192 0 100 65536 true (lab_guard lab_under) (lab_guard lab_head) (lab_guard lab_over) = Lent 65544 m' /\
  size m' 65544 = 160 /\ check m' 65544 = true.
Proof. eexists. split; [reflexivity|]. vm_compute. split; reflexivity. Qed.
Example C85_life_case : sound foreign 4096 (8192 + 2) 61440 100 /\ counter foreign 4096 = 1 /\
  match dropped 3 (references 3 foreign 4096) 4096 with Kept m' => check m' 4096 && (counter m' 4096 =? 1) && match detach m' 4096 with Repaid al m2 => (al =? 8192) && negb (check m2 4096) && negb (check (add_reference (add_reference m2 4096) 4096) 4096) | _ => false end | _ => false end = true.
Proof. split; [exact foreign_sound|]. vm_compute. split; reflexivity. Qed.
Lemma some_sound h payload n : 0 < h < 2 ^ 64 -> 0 < payload < 2 ^ 64 -> 0 < n < 2 ^ 32 -> sound (some_mem h payload n) 4096 h (u64 (payload - 4096)) n /\ counter (some_mem h payload n) 4096 = 1.
Proof.
  intros H P N. destruct lab_guards as (U & G & O). assert (Bz : bytes (fun _ => 0)) by (intros x; lia).
  assert (I : init (fun _ => 0) 4096 h payload n (lab_guard lab_under) (lab_guard lab_head) (lab_guard lab_over) = Some (some_mem h payload n)).
  { unfold some_mem. destruct (init _ _ _ _ _ _ _ _) eqn:E; [reflexivity|]. unfold init in E. replace (n >=? 0) with true in E by lia. replace (payload =? 0) with false in E by lia.
    replace (n =? 0) with false in E by lia. discriminate. }
  destruct (init_made _ 4096 h payload n _ _ _ _ Bz ltac:(lia) ltac:(lia) U G O ltac:(lia) ltac:(lia) I) as (M & C & _).
  replace (payload =? 0) with false in M by lia. split; [split; [exact M|lia]|exact C].
Qed.
Example C85_shared_case : let t := tag_of_parts 5 1 2 1 in sound (some_mem t 65536 100) 4096 t 61440 100 /\ counter (some_mem t 65536 100) 4096 = 1 /\
  check (some_mem t 65536 100) 4096 = true /\ match detach (some_mem t 65536 100) 4096 with Terminated => true | _ => false end = true.
Proof. cbv zeta. destruct (some_sound (tag_of_parts 5 1 2 1) 65536 100) as [S0 C]; [vm_compute; split; reflexivity|lia|lia|]. split; [exact S0|]. split; [exact C|]. vm_compute. split; reflexivity. Qed.
Example C85_weak_case : match detach (some_mem 2 65536 100) 4096 with Destroyed _ => true | _ => false end = true.
Proof. vm_compute. reflexivity. Qed.
Example C85_empty_case : check (some_mem 8194 0 0) 4096 = true /\ ensure (some_mem 8194 0 0) 4096 = false /\ size (some_mem 8194 65536 (2 ^ 32 + 5)) 4096 = 5.
Proof. vm_compute. repeat split. Qed.
Example C85_probe_case : probe_pages 12288 8193 4096 = [12288; 16384; 20480] /\ prefault (fun x => x >? 100) 2 0 500 100 = (false, [[0; 100]; [200; 300]]).
Proof. vm_compute. split; reflexivity. Qed.

Print Assumptions C85_made.
Print Assumptions C85_checks_agree.
Print Assumptions C85_empty_refuted.
Print Assumptions C85_long_refuted.
Print Assumptions C85_payload_is_free.
Print Assumptions C85_one_byte_noticed.
Print Assumptions C85_fields_unguarded_refuted.
Print Assumptions C85_counted.
Print Assumptions C85_given_up.
Print Assumptions C85_shared_release_refuted.
Print Assumptions C85_local_release.
Print Assumptions C85_lent.
Print Assumptions C85_flags_lost_refuted.
Print Assumptions C85_no_allocator.
Print Assumptions C85_probes.
Print Assumptions C85_last_page_refuted.
Print Assumptions C85_prefault.

(** ** What the flags of the owner's tag say *)
Theorem C85_kinds : forall m a h off n, sound m a h off n ->
  is_readonly m a = Z.odd h /\ is_localweak m a = Z.odd (h / 2) /\ (is_warpable m a = true <-> h mod 4 = 0) /\
  is_warpable m a = negb (is_readonly m a) && negb (is_localweak m a).
Proof.
  intros m a h off n (M & H & _). unfold is_readonly, is_localweak, is_warpable. rewrite (md_host _ _ _ _ _ M).
  assert (A : Z.land h 1 = h mod 2) by (change 1 with (Z.ones 1); rewrite Z.land_ones by lia; reflexivity).
  assert (C : Z.land h 3 = h mod 4) by (change 3 with (Z.ones 2); rewrite Z.land_ones by lia; reflexivity).
  assert (B : Z.land h 2 = 2 * (h / 2 mod 2)).
  { change 2 with (2 ^ 1) at 2 3 4. rewrite <- Z.shiftr_div_pow2, <- (Z.land_ones _ 1), Z.mul_comm, <- Z.shiftl_mul_pow2 by lia.
    apply Z.bits_inj'. intros i Hi. rewrite Z.shiftl_spec by lia. destruct (Z.eq_dec i 0) as [->|I0]; [rewrite Z.land_spec; cbn; apply Bool.andb_false_r|].
    rewrite !Z.land_spec, Z.shiftr_spec by lia. replace (i - 1 + 1) with i by lia. f_equal. change 2 with (2 * 1). replace i with (Z.succ (i - 1)) at 1 by lia. rewrite Z.double_bits_succ. reflexivity. }
  rewrite A, B, C. rewrite !Zodd_mod. unfold Zeq_bool. repeat split; try (intros; lia); destruct (Z.compare_spec (h mod 2) 1), (Z.compare_spec (h / 2 mod 2) 1); lia.
Qed.
(** the guards are labelled with the names they have in the source *)
From Verif Require Keywords.
From Coq Require Import String.
Example C85_labels_case : [lab_head; lab_under; lab_over] = map (fun w => label_sig (Keywords.codes w)) ["head"; "under"; "over"]%string /\ NoDup [lab_head; lab_under; lab_over].
Proof. split; [vm_compute; reflexivity|]. vm_compute. repeat constructor; cbn; intuition discriminate. Qed.
(** one of the standard allocator's buffers and one nobody but its owner may touch *)
Example C85_kinds_case : is_warpable foreign 4096 = false /\ is_localweak foreign 4096 = true /\ is_warpable (some_mem 8192 65536 100) 4096 = true /\ is_readonly (some_mem 8193 65536 100) 4096 = true.
Proof. vm_compute. repeat split. Qed.
Print Assumptions C85_kinds.
Print Assumptions C85_apart.

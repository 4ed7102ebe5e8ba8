(** C78: the guarded allocator. *)
From Coq Require Import ZArith List Lia Bool.
From Verif Require Import Base Hippeus HippeusProofs MixProofs Guarded GuardedProofs.
Import ListNotations.
Local Open Scope Z_scope.
Ltac Zify.zify_post_hook ::= Z.div_mod_to_equations.

(** A heap reached from bare memory by taking blocks that the base hands out disjoint, writing into
    one's own elements, and giving back what one has, in any order and number. *)
Inductive lived_heap : heap -> Prop :=
| lh_start m : (forall a, 0 <= m a < 256) -> lived_heap (mkHeap m [] [])
| lh_step h o h' : lived_heap h -> legal h o -> hstep h o = Some h' -> lived_heap h'.
Lemma lived_hinv h : lived_heap h -> HInv h.
Proof.
  induction 1 as [m B|h o h' L IH G H].
  - constructor; cbn; auto.
  - destruct (step_keeps h o IH G) as (h2 & H2 & I). congruence.
Qed.
Lemma lived_sound h k : lived_heap h -> In k (h_live h) -> sound (h_mem h) k.
Proof. intros L K. exact (proj1 (Forall_forall _ _) (hi_sound h (lived_hinv h L)) k K). Qed.

(** a concrete heap: two blocks, of bytes and of 12-byte elements, both written to *)
Definition g_under : Z * Z := (305419896, mixup 305419896 sig_under).
Definition g_over : Z * Z := (305419897, mixup 305419897 sig_over).
Lemma g_under_set : set_up sig_under g_under.
Proof. exists 1%nat, 305419896. split; [lia|]. vm_compute. reflexivity. Qed.
Lemma g_over_set : set_up sig_over g_over.
Proof. exists 1%nat, 305419897. split; [lia|]. vm_compute. reflexivity. Qed.
Definition bare : heap := mkHeap (fun _ => 0) [] [].
Definition ops1 : list hop := [HTake 1000 1 21 4096 g_under g_over; HTake 1000 12 3 4160 g_under g_over; HPut 4104 7; HPut 4124 255; HPut 4172 1].
Fixpoint legals (h : heap) (l : list hop) : Prop :=
  match l with [] => True | o :: l => legal h o /\ match hstep h o with Some h => legals h l | None => False end end.
Lemma legals_lived l : forall h h', lived_heap h -> legals h l -> hrun h l = Some h' -> lived_heap h'.
Proof.
  induction l as [|o l IH]; intros h h' L G R; cbn [legals hrun] in *; [injection R as <-; exact L|].
  destruct G as [G1 G2]. destruct (hstep h o) as [h1|] eqn:E; [|destruct G2]. exact (IH h1 h' (lh_step h o h1 L G1 E) G2 R).
Qed.
Definition k1 : owned := mkOwned 1 21 4104.
Definition k2 : owned := mkOwned 12 3 4172.
Lemma bare_lived : lived_heap bare.
Proof. apply lh_start. intros a. lia. Qed.
Definition heap1 : heap := match hrun bare ops1 with Some h => h | None => bare end.
Lemma take1 : max_size 1000 1 = 984 /\ max_size 1000 12 = 998 /\ asked 1 21 = 37 /\ asked 12 3 = 5 /\ gap 1 = 8 /\ gap 12 = 1.
Proof. vm_compute. auto 10. Qed.
Lemma ops1_legal : legals bare ops1.
Proof.
  pose proof g_under_set as U. pose proof g_over_set as O. destruct take1 as (T1 & T2 & T3 & T4 & T5 & T6).
  split; [|change (hstep bare (HTake 1000 1 21 4096 g_under g_over)) with (Some (mkHeap (put_guard (put_guard (fun _ => 0) 4096 g_under) 4125 g_over) [k1] [(4096, 1, 37)])); cbv iota].
  { cbn [legal]. rewrite T5. repeat (split; [lia || assumption|]). intros _. constructor. }
  set (m1 := put_guard (put_guard (fun _ => 0) 4096 g_under) 4125 g_over).
  split; [|change (hstep (mkHeap m1 [k1] [(4096, 1, 37)]) (HTake 1000 12 3 4160 g_under g_over)) with
     (Some (mkHeap (put_guard (put_guard m1 4164 g_under) 4208 g_over) [k2; k1] [(4160, 12, 5); (4096, 1, 37)])); cbv iota].
  { cbn [legal]. rewrite T6. repeat (split; [lia || assumption|]). intros _. unfold fresh. rewrite T4. cbn [h_base]. constructor; [right; lia|constructor]. }
  set (m2 := put_guard (put_guard m1 4164 g_under) 4208 g_over). clearbody m2. clear m1.
  split; [cbn [legal h_live]; exists k1; split; [right; left; reflexivity|cbn; lia]|]. cbn [hstep h_live h_base].
  split; [cbn [legal h_live]; exists k1; split; [right; left; reflexivity|cbn; lia]|]. cbn [hstep h_live h_base].
  split; [cbn [legal h_live]; exists k2; split; [left; reflexivity|cbn; lia]|]. cbn [hstep h_live h_base]. exact Logic.I.
Qed.
Lemma heap1_run : hrun bare ops1 = Some heap1.
Proof. reflexivity. Qed.
Lemma heap1_lived : lived_heap heap1.
Proof. exact (legals_lived ops1 bare heap1 bare_lived ops1_legal heap1_run). Qed.
Lemma heap1_live : h_live heap1 = [k2; k1].
Proof. reflexivity. Qed.

(** ** No false alarm *)
(** However blocks are taken, filled and given back, no check ever fails, and the base gets back only
    what it gave: the same address with the same number of elements. *)
Theorem C78_no_false_alarm : forall h o, lived_heap h -> legal h o -> exists h', hstep h o = Some h' /\ lived_heap h'.
Proof.
  intros h o L G. destruct (step_keeps h o (lived_hinv h L) G) as (h' & H & _). exists h'. split; [exact H|].
  exact (lh_step h o h' L G H).
Qed.
Example C78_no_false_alarm_case : exists h', hrun bare (ops1 ++ [HBack k1; HPut 4180 9; HBack k2]) = Some h' /\ h_live h' = [] /\ h_base h' = [].
Proof.
  exists (match hrun bare (ops1 ++ [HBack k1; HPut 4180 9; HBack k2]) with Some h => h | None => bare end). split; [|split]; vm_compute; reflexivity.
Qed.
(** What the base has given and not got back is exactly what the live blocks need. *)
Theorem C78_base_balance : forall h, lived_heap h ->
  h_base h = map (fun k => (o_p k - gap (o_sz k) * o_sz k, o_sz k, o_n k + gap (o_sz k) * 2)) (h_live h).
Proof. intros h L. exact (hi_base h (lived_hinv h L)). Qed.
Example C78_base_balance_case : h_base heap1 = [(4160, 12, 5); (4096, 1, 37)].
Proof. reflexivity. Qed.
(** The release of a live block hands the base its address and number of elements. *)
Theorem C78_release : forall h k, lived_heap h -> In k (h_live h) ->
  exists m, deallocate (o_sz k) (o_p k) (o_n k) (h_mem h) = FBack (o_p k - gap (o_sz k) * o_sz k) (o_n k + gap (o_sz k) * 2) m /\
    forall a, o_p k <= a < o_p k + o_n k * o_sz k -> m a = h_mem h a.
Proof.
  intros h k L K. destruct (lived_sound h k L K) as (S & N & C & G1 & G2). pose proof (gap_pos _ S) as GP.
  unfold deallocate. replace (o_n k >? 0) with true by lia. unfold guard_space. rewrite G1, G2. cbn [negb].
  assert (AS : asked (o_sz k) (o_n k) = count_of k) by (unfold asked, u64; apply Z.mod_small; unfold count_of in *; lia).
  rewrite AS. eexists. split; [reflexivity|]. intros a A. rewrite put_guard_other by lia. apply put_guard_other. lia.
Qed.

(** ** Where things lie *)
(** Both guards lie in the block of the base, right beside the user's elements and outside them, and
    apart from the blocks of all others. *)
Theorem C78_layout : forall h k, lived_heap h -> In k (h_live h) ->
  let block := o_p k - gap (o_sz k) * o_sz k in let finish := block + (o_n k + gap (o_sz k) * 2) * o_sz k in
  block <= o_p k - 8 /\ o_p k < o_p k + o_n k * o_sz k /\ o_p k + o_n k * o_sz k + 8 <= finish /\
  (forall l, In l (h_live h) -> l = k \/
     finish <= o_p l - gap (o_sz l) * o_sz l \/ o_p l + (o_n l + gap (o_sz l)) * o_sz l <= block).
Proof.
  intros h k L K. cbv zeta. destruct (lived_sound h k L K) as (S & N & _). pose proof (parts k S N) as P.
  unfold end_of, count_of, block_of in P. repeat (split; [lia|]). intros l IL.
  destruct (pairwise_in apart_of apart_sym _ k l (hi_apart h (lived_hinv h L)) K IL) as [E|E]; [left; congruence|right].
  unfold apart_of, end_of, count_of, block_of in E. lia.
Qed.
Example C78_layout_case : lived_heap heap1 /\ In k2 (h_live heap1) /\ o_p k2 - gap 12 * 12 = 4160.
Proof. split; [exact heap1_lived|]. split; [left; reflexivity|reflexivity]. Qed.
(** Nothing the allocator does touches the elements of a block that stays live. *)
Theorem C78_bytes_kept : forall h o h' k a, lived_heap h -> legal h o -> hstep h o = Some h' ->
  In k (h_live h) -> In k (h_live h') -> o_p k <= a < o_p k + o_n k * o_sz k ->
  h_mem h' a = h_mem h a \/ exists v, o = HPut a v /\ h_mem h' a = v mod 256.
Proof.
  intros h o h' k a L G H K K' A. pose proof (lived_hinv h L) as I.
  destruct (lived_sound h k L K) as (S & N & _). pose proof (parts k S N) as P.
  destruct o as [base_max sz n block gu go|b v|k0].
  - left. pose proof G as G0. cbn [hstep legal] in *. destruct G as (S1 & N1 & B1 & _ & _ & F). unfold allocate in H.
    destruct ((n =? 0) || (n >? max_size base_max sz)) eqn:E; [congruence|].
    apply Bool.orb_false_iff in E. destruct E as [E1 E2]. apply Z.eqb_neq in E1. rewrite Z.gtb_ltb in E2. apply Z.ltb_ge in E2.
    destruct (asked_small base_max sz n S1 N1 B1 E2) as [A1 A2]. specialize (F ltac:(lia)). unfold fresh in F.
    rewrite (hi_base h I), A1, Forall_map in F. rewrite Forall_forall in F. specialize (F k K). unfold given in F.
    cbv zeta in H. injection H as <-. cbn [h_mem]. unfold guard_space. pose proof (gap_space sz S1) as GS. unfold end_of in P.
    rewrite put_guard_other by nia. apply put_guard_other. nia.
  - cbn [hstep] in H. injection H as <-. cbn [h_mem]. destruct (Z.eq_dec a b) as [-> |NE].
    + right. exists v. split; [reflexivity|apply put_same].
    + left. apply put_other. exact NE.
  - left. cbn [hstep legal] in *. destruct (drop_split owned_eqb owned_eqb_eq k0 (h_live h) G) as (l1 & l2 & E & D & NI). rewrite D in H.
    destruct (lived_sound h k0 L G) as (S0 & N0 & _ & _ & _). pose proof (parts k0 S0 N0) as P0.
    unfold deallocate in H. replace (o_n k0 >? 0) with true in H by lia.
    destruct (negb (guard_ok (h_mem h) (o_p k0 - guard_space) sig_under)); [discriminate H|].
    destruct (negb (guard_ok (h_mem h) (o_p k0 + o_n k0 * o_sz k0) sig_over)); [discriminate H|].
    destruct (drop_one given_eqb _ _) as [base|]; [|discriminate H]. injection H as <-. cbn [h_mem h_live] in *.
    pose proof (hi_apart h I) as AP. rewrite E in AP. apply (pairwise_middle apart_of apart_sym) in AP. destruct AP as [_ AP].
    rewrite Forall_forall in AP. specialize (AP k K'). unfold apart_of in AP. unfold guard_space.
    rewrite put_guard_other by lia. apply put_guard_other. lia.
Qed.

(** ** Damage is noticed *)
(** Any single byte written beside the elements, up to eight before or after, is noticed on release. *)
Theorem C78_one_byte_noticed : forall h k a v, lived_heap h -> In k (h_live h) ->
  o_p k - 8 <= a < o_p k \/ o_p k + o_n k * o_sz k <= a < o_p k + o_n k * o_sz k + 8 ->
  0 <= v < 256 -> v <> h_mem h a ->
  deallocate (o_sz k) (o_p k) (o_n k) (put (h_mem h) a v) = FBug.
Proof.
  intros h k a v L K A V NE. destruct (lived_sound h k L K) as (S & N & C & G1 & G2). pose proof (parts k S N) as P.
  pose proof (hi_bytes h (lived_hinv h L)) as B.
  unfold deallocate. replace (o_n k >? 0) with true by lia. unfold guard_space. destruct A as [A|A].
  - assert (A' : o_p k - 8 <= a < o_p k - 8 + 8) by lia. rewrite (guard_byte _ _ _ _ _ B G1 A' V NE). reflexivity.
  - rewrite (guard_byte _ _ _ _ _ B G2 A V NE).
    destruct (negb (guard_ok (put (h_mem h) a v) (o_p k - 8) sig_under)); reflexivity.
Qed.
Example C78_one_byte_case : In k1 (h_live heap1) /\ h_mem heap1 4125 <> 0 /\
  deallocate 1 4104 21 (put (h_mem heap1) 4125 0) = FBug /\ deallocate 1 4104 21 (put (h_mem heap1) 4096 (h_mem heap1 4096 + 1)) = FBug.
Proof. split; [right; left; reflexivity|]. split; [discriminate|]. split; vm_compute; reflexivity. Qed.
(** So is any write that reaches the four bytes nearest before the elements, or the second four after
    them, and leaves the other word of the guard as it was; and any that leaves a word of a guard with
    an upper half of zeros or of ones. *)
Definition damaged (h : heap) (k : owned) (m : mem) : Prop :=
  exists a, (a = o_p k - 8 \/ a = o_p k + o_n k * o_sz k) /\
   ((word m a = word (h_mem h) a /\ word m (a + 4) <> word (h_mem h) (a + 4)) \/
    (exists b, (b = a \/ b = a + 4) /\ (m (b + 2) = 0 /\ m (b + 3) = 0 \/ m (b + 2) = 255 /\ m (b + 3) = 255))).
Theorem C78_damage_noticed : forall h k m, lived_heap h -> In k (h_live h) -> (forall a, 0 <= m a < 256) -> damaged h k m ->
  deallocate (o_sz k) (o_p k) (o_n k) m = FBug.
Proof.
  intros h k m L K B (a & A & D). destruct (lived_sound h k L K) as (S & N & C & G1 & G2).
  assert (BAD : forall sig, guard_ok (h_mem h) a sig = true -> guard_ok m a sig = false).
  { intros sig G. unfold guard_ok in *. destruct D as [[D1 D2]|(b & BA & D)].
    - apply probe_word in G. rewrite D1. unfold guard_probe. rewrite <- G. apply Bool.andb_false_iff. right. apply Z.eqb_neq. exact D2.
    - assert (F : fairly (word m b) = false).
      { pose proof (B b). pose proof (B (b + 1)). unfold fairly, word.
        destruct D as [[E1 E2]|[E1 E2]]; rewrite E1, E2; change (2 ^ 8) with 256; change (2 ^ 16) with 65536; change (2 ^ 24) with 16777216; lia. }
      unfold guard_probe. destruct BA as [-> | ->]; rewrite F; [reflexivity|rewrite Bool.andb_false_r; reflexivity]. }
  unfold deallocate. replace (o_n k >? 0) with true by lia. unfold guard_space. destruct A as [-> | ->].
  - rewrite (BAD _ G1). reflexivity.
  - rewrite (BAD _ G2). destruct (negb (guard_ok m (o_p k - 8) sig_under)); reflexivity.
Qed.
Example C78_damage_case : damaged heap1 k1 (put (put (h_mem heap1) 4127 0) 4128 0) /\
  deallocate 1 4104 21 (put (put (h_mem heap1) 4127 0) 4128 0) = FBug.
Proof.
  split; [|vm_compute; reflexivity]. exists 4125. split; [right; reflexivity|]. right. exists 4125. split; [left; reflexivity|].
  left. vm_compute. auto.
Qed.
(** A second release is noticed as long as the memory was not used anew. *)
Theorem C78_second_release_noticed : forall h k m b c, lived_heap h -> In k (h_live h) ->
  deallocate (o_sz k) (o_p k) (o_n k) (h_mem h) = FBack b c m -> deallocate (o_sz k) (o_p k) (o_n k) m = FBug.
Proof.
  intros h k m b c L K H. destruct (lived_sound h k L K) as (S & N & C & G1 & G2). pose proof (parts k S N) as P.
  unfold deallocate in *. replace (o_n k >? 0) with true in * by lia. unfold guard_space in *. rewrite G1, G2 in H. cbn [negb] in H.
  assert (M : m = put_guard (put_guard (h_mem h) (o_p k - 8) drowned_guard) (o_p k + o_n k * o_sz k) drowned_guard) by congruence.
  rewrite M. rewrite (guard_frame (put_guard (h_mem h) (o_p k - 8) drowned_guard)) by (intros x X; apply put_guard_other; lia).
  rewrite guard_put by (vm_compute; split; congruence). reflexivity.
Qed.
Example C78_second_release_case : exists b c m, deallocate 1 4104 21 (h_mem heap1) = FBack b c m /\ b = 4096 /\ c = 37.
Proof.
  exists 4096, 37, (put_guard (put_guard (h_mem heap1) 4096 drowned_guard) 4125 drowned_guard).
  split; [|split; reflexivity]. unfold deallocate. replace (guard_ok (h_mem heap1) (4104 - guard_space) sig_under) with true by (vm_compute; reflexivity).
  replace (guard_ok (h_mem heap1) (4104 + 21 * 1) sig_over) with true by (vm_compute; reflexivity). reflexivity.
Qed.
(** The two guards of a block are never taken for one another. *)
Theorem C78_guards_told_apart : forall chirp mesh,
  (guard_probe chirp mesh sig_under = true -> guard_probe chirp mesh sig_over = false) /\
  (guard_probe chirp mesh sig_over = true -> guard_probe chirp mesh sig_under = false).
Proof.
  assert (D : forall chirp, mixup chirp sig_under <> mixup chirp sig_over).
  { intros chirp. rewrite !mixup_mixed. change sig_over with (sig_under + 26).
    replace (u32 (chirp + (sig_under + 26))) with (u32 (u32 (chirp + sig_under) + 26 * 2 ^ (8 * 0))).
    - apply step_byte; [lia| |lia]. apply Z.mod_pos_bound. reflexivity.
    - change (26 * 2 ^ (8 * 0)) with 26. unfold u32. rewrite Zplus_mod_idemp_l. f_equal. ring. }
  intros chirp mesh. specialize (D chirp). split; intros H; apply Bool.not_true_is_false; intros G;
    apply probe_word in H; apply probe_word in G; congruence.
Qed.
Example C78_labels_case : sig_under = 95698340 /\ sig_over = 95698366.
Proof. split; reflexivity. Qed.
(** Two bytes written past the end may go unnoticed: their mix is the same. *)
Definition unlucky : Z * Z := (0x836f29, mixup 0x836f29 sig_over).
Definition heap2 : heap := match hrun bare [HTake 1000 1 16 4096 g_under unlucky] with Some h => h | None => bare end.
Theorem C78_two_bytes_refuted : exists h k v w, lived_heap h /\ In k (h_live h) /\
  let a := o_p k + o_n k * o_sz k in let m := put (put (h_mem h) a v) (a + 1) w in
  0 <= v < 256 /\ 0 <= w < 256 /\ m a <> h_mem h a /\ m (a + 1) <> h_mem h (a + 1) /\
  match deallocate (o_sz k) (o_p k) (o_n k) m with FBack _ _ _ => True | _ => False end.
Proof.
  exists heap2, (mkOwned 1 16 4104), 0x64, 0x78. split.
  - apply (legals_lived [HTake 1000 1 16 4096 g_under unlucky] bare heap2 bare_lived); [|reflexivity]. split; [|exact Logic.I].
    cbn [legal]. change (gap 1) with 8. split; [lia|]. split; [lia|]. split; [lia|]. split; [exact g_under_set|]. split; [|constructor].
    exists 1%nat, 0x836f29. split; [lia|]. vm_compute. reflexivity.
  - split; [left; reflexivity|]. vm_compute. split; [split; congruence|]. split; [split; congruence|]. split; [discriminate|]. split; [discriminate|exact Logic.I].
Qed.

(** ** C49. The guard itself *)
(** Under every signature a change within one byte of the first word is noticed; with
    [C49_guard_detects] for the second word, so is any change within one byte of a guard. *)
Theorem C49_one_byte_noticed : forall j rest v w mesh sig, 0 <= j <= 3 -> 0 <= v < 256 -> 0 <= w < 256 -> v <> w ->
  guard_probe (rest + v * 2 ^ (8 * j)) mesh sig = true -> guard_probe (rest + w * 2 ^ (8 * j)) mesh sig = false.
Proof.
  intros j rest v w mesh sig J V W N G. apply Bool.not_true_is_false. intros H. apply probe_word in G. apply probe_word in H.
  rewrite G in H. revert H. apply mixup_byte; [exact J| | |exact N]; lia.
Qed.
(** In particular any single bit. *)
Theorem C49_one_bit_noticed : forall b chirp mesh sig, 0 <= b < 32 -> 0 <= chirp < 2 ^ 32 ->
  guard_probe chirp mesh sig = true -> guard_probe (Z.lxor chirp (2 ^ b)) mesh sig = false.
Proof.
  intros b chirp mesh sig B C G.
  pose (j := b / 8). pose (v := (chirp / 2 ^ (8 * j)) mod 256).
  assert (P : 0 < 2 ^ (8 * j)) by (apply Z.pow_pos_nonneg; unfold j; lia).
  assert (PB : 2 ^ b = 2 ^ (b mod 8) * 2 ^ (8 * j)) by (rewrite <- Z.pow_add_r by (unfold j; lia); f_equal; unfold j; lia).
  assert (VB : 0 <= v < 256) by (apply Z.mod_pos_bound; lia).
  assert (R : 0 <= b mod 8 <= 7) by lia.
  assert (T : Z.lxor chirp (2 ^ b) = (chirp - v * 2 ^ (8 * j)) + Z.lxor v (2 ^ (b mod 8)) * 2 ^ (8 * j)).
  { destruct (Z.testbit chirp b) eqn:E.
    - assert (EV : Z.testbit v (b mod 8) = true).
      { unfold v. change 256 with (2 ^ 8). rewrite Z.mod_pow2_bits_low by lia. rewrite <- Z.shiftr_div_pow2 by (unfold j; lia).
        rewrite Z.shiftr_spec by lia. rewrite <- E. f_equal. unfold j. lia. }
      assert (L : forall x n, 0 <= n -> Z.testbit x n = true -> Z.lxor x (2 ^ n) = x - 2 ^ n).
      { intros x n N X. assert (Y : Z.land (Z.lxor x (2 ^ n)) (2 ^ n) = 0).
        { apply Z.bits_inj'. intros i I. rewrite Z.land_spec, Z.lxor_spec, Z.bits_0, Z.pow2_bits_eqb by lia.
          destruct (Z.eqb_spec n i) as [<-|]; [rewrite X; reflexivity|apply Bool.andb_false_r]. }
        apply Z.add_nocarry_lxor in Y. rewrite Z.lxor_assoc, Z.lxor_nilpotent, Z.lxor_0_r in Y. lia. }
      rewrite (L chirp b) by (lia || exact E). rewrite (L v (b mod 8)) by (lia || exact EV). rewrite PB. ring.
    - assert (EV : Z.testbit v (b mod 8) = false).
      { unfold v. change 256 with (2 ^ 8). rewrite Z.mod_pow2_bits_low by lia. rewrite <- Z.shiftr_div_pow2 by (unfold j; lia).
        rewrite Z.shiftr_spec by lia. rewrite <- E. f_equal. unfold j. lia. }
      assert (L : forall x n, 0 <= n -> Z.testbit x n = false -> Z.lxor x (2 ^ n) = x + 2 ^ n).
      { intros x n N X. symmetry. apply Z.add_nocarry_lxor. apply Z.bits_inj'. intros i I. rewrite Z.land_spec, Z.bits_0, Z.pow2_bits_eqb by lia.
        destruct (Z.eqb_spec n i) as [<-|]; [rewrite X; reflexivity|apply Bool.andb_false_r]. }
      rewrite (L chirp b) by (lia || exact E). rewrite (L v (b mod 8)) by (lia || exact EV). rewrite PB. ring. }
  assert (NE : v <> Z.lxor v (2 ^ (b mod 8))).
  { intros E. apply (f_equal (fun z => Z.testbit z (b mod 8))) in E. rewrite Z.lxor_spec, Z.pow2_bits_true in E by lia.
    destruct (Z.testbit v (b mod 8)); discriminate E. }
  assert (WB : 0 <= Z.lxor v (2 ^ (b mod 8)) < 256).
  { split; [apply Z.lxor_nonneg; split; [intros _; apply Z.pow_nonneg; lia|intros _; lia]|].
    rewrite <- (Z.mod_small v 256) by exact VB. change 256 with (2 ^ 8) at 2.
    assert (X : Z.lxor (v mod 256) (2 ^ (b mod 8)) = Z.lxor (v mod 256) (2 ^ (b mod 8)) mod 2 ^ 8).
    { apply Z.bits_inj'. intros i I. change 256 with (2 ^ 8). destruct (Z.lt_ge_cases i 8).
      - rewrite (Z.mod_pow2_bits_low (Z.lxor _ _)) by lia. reflexivity.
      - rewrite (Z.mod_pow2_bits_high (Z.lxor _ _)) by lia. rewrite Z.lxor_spec, Z.mod_pow2_bits_high, Z.pow2_bits_false by lia. reflexivity. }
    rewrite X. apply Z.mod_pos_bound. reflexivity. }
  rewrite T. apply (C49_one_byte_noticed j (chirp - v * 2 ^ (8 * j)) v); [unfold j; lia|exact VB|exact WB|exact NE|].
  replace (chirp - v * 2 ^ (8 * j) + v * 2 ^ (8 * j)) with chirp by ring. exact G.
Qed.
Example C49_bytes_case : guard_probe (305419648 + 248) (mixup 305419896 95698340) 95698340 = true /\
  guard_probe (305419648 + 249) (mixup 305419896 95698340) 95698340 = false /\ guard_probe (Z.lxor 305419896 (2 ^ 31)) (mixup 305419896 95698340) 95698340 = false.
Proof. vm_compute. auto. Qed.
(** Two bytes are too many. *)
Theorem C49_two_bytes_refuted : exists chirp chirp' mesh sig, 0 <= chirp < 2 ^ 32 /\ 0 <= chirp' < 2 ^ 32 /\ chirp <> chirp' /\ chirp / 2 ^ 16 = chirp' / 2 ^ 16 /\ guard_probe chirp mesh sig = true /\ guard_probe chirp' mesh sig = true.
Proof. exists 0x836f29, 0x837864, 0x19459155, 95698366. vm_compute. repeat split; congruence. Qed.

(** ** Limits and alignment *)
(** Within a base that can hold two gaps, what is asked never exceeds its limit; nothing and too much
    give a null pointer. *)
Theorem C78_limit : forall base_max sz n block gu go m, 1 <= sz -> 0 <= n < 2 ^ 64 -> gap sz * 2 <= base_max < 2 ^ 64 ->
  (allocate base_max sz n block gu go m = None <-> n = 0 \/ base_max < n + gap sz * 2) /\
  (allocate base_max sz n block gu go m <> None -> asked sz n = n + gap sz * 2 /\ asked sz n <= base_max).
Proof.
  intros base_max sz n block gu go m S N B. pose proof (gap_pos sz S) as G.
  assert (M : max_size base_max sz = base_max - gap sz * 2) by (unfold max_size, u64; apply Z.mod_small; lia).
  unfold allocate. rewrite M. split.
  - destruct ((n =? 0) || (n >? base_max - gap sz * 2)) eqn:E; split; intros H; try reflexivity; try discriminate H; lia.
  - destruct ((n =? 0) || (n >? base_max - gap sz * 2)) eqn:E; intros H; [congruence|].
    assert (R : asked sz n = n + gap sz * 2) by (unfold asked, u64; apply Z.mod_small; lia). lia.
Qed.
Example C78_limit_case : allocate 100 1 84 4096 g_under g_over (fun _ => 0) <> None /\ allocate 100 1 85 4096 g_under g_over (fun _ => 0) = None.
Proof. split; [discriminate|reflexivity]. Qed.
(** With a smaller base the limit wraps: then a huge request is let through and the base is asked for
    nothing. *)
Theorem C78_limit_refuted : exists base_max sz n block gu go m, 1 <= sz /\ 0 <= base_max /\ base_max < n < 2 ^ 64 /\
  allocate base_max sz n block gu go m <> None /\ asked sz n = 0.
Proof.
  exists 15, 1, (2 ^ 64 - 16), 4096, g_under, g_over, (fun _ => 0). split; [lia|]. split; [lia|]. split; [lia|].
  split; [discriminate|vm_compute; reflexivity].
Qed.
(** Guards are 64-bit objects: they are aligned when the size of the elements divides eight or is a
    multiple of it and the elements fill whole words. *)
Theorem C78_aligned : forall sz n block, 1 <= sz -> (8 mod sz = 0 \/ sz mod 8 = 0) -> (n * sz) mod 8 = 0 -> block mod 8 = 0 ->
  let p := block + gap sz * sz in (p - guard_space) mod 8 = 0 /\ (p + n * sz) mod 8 = 0.
Proof.
  intros sz n block S D N B. cbv zeta.
  assert (G : (gap sz * sz) mod 8 = 0).
  { destruct D as [D|D].
    - assert (R : 1 <= sz <= 8) by (split; [lia|]; destruct (Z.le_gt_cases sz 8); [assumption|]; rewrite Z.mod_small in D by lia; lia).
      assert (E : sz = 1 \/ sz = 2 \/ sz = 3 \/ sz = 4 \/ sz = 5 \/ sz = 6 \/ sz = 7 \/ sz = 8) by lia.
      destruct E as [-> | [-> | [-> | [-> | [-> | [-> | [-> | ->]]]]]]]; vm_compute in D |- *; congruence.
    - assert (E : gap sz = 1).
      { unfold gap, guard_space. symmetry. apply (Z.div_unique _ _ 1 7); lia. }
      rewrite E, Z.mul_1_l. exact D. }
  unfold guard_space. set (x := gap sz * sz) in *. set (y := n * sz) in *. clearbody x y. clear -G N B. lia.
Qed.
Example C78_aligned_case : (4096 + gap 24 * 24 - guard_space) mod 8 = 0 /\ (4096 + gap 24 * 24 + 5 * 24) mod 8 = 0.
Proof. split; reflexivity. Qed.
(** Otherwise they are not: a string of odd length has its second guard at an odd address, and
    elements of twelve bytes have both guards astray. *)
Theorem C78_alignment_refuted : exists h k l, lived_heap h /\ In k (h_live h) /\ In l (h_live h) /\
  (o_p k - gap (o_sz k) * o_sz k) mod 32 = 0 /\ (o_p k + o_n k * o_sz k) mod 2 = 1 /\
  (o_p l - gap (o_sz l) * o_sz l) mod 32 = 0 /\ (o_p l - guard_space) mod 8 = 4.
Proof.
  exists heap1, k1, k2. split; [exact heap1_lived|]. split; [right; left; reflexivity|]. split; [left; reflexivity|]. vm_compute. auto.
Qed.
(** The buffers of the library do not meet this: the bytes asked for a buffer are whole words. *)
Theorem C78_buffers_aligned : forall wanna block b, Hippeus.borrow 8 wanna block = Some b -> block mod 16 = 0 ->
  gap 1 * 1 = 8 /\ b_addr b = block + gap 1 * 1 /\ b_block_size b = asked 1 (b_bytes b) /\
  (b_addr b - guard_space) mod 8 = 0 /\ (b_addr b + b_bytes b * 1) mod 8 = 0.
Proof.
  intros wanna block b H B. unfold borrow in H. destruct ((wanna <? 1) || (wanna >? buffer_limit)) eqn:E; [discriminate H|].
  cbv zeta in H. set (c := ceil (u64 (wanna + space_overhead 8 + (8 * 2 + 8 * 2))) 64) in *.
  assert (E2 : b = mkB block (u64 (c - (8 * 2 + 8 * 2)) + 8 * 2) (block + 8) (u64 (c - (8 * 2 + 8 * 2)))
     (u32 (u64 (c - (8 * 2 + 8 * 2)) - space_overhead 8)) (block + 8 + inplace_offset 8)) by congruence.
  rewrite E2. cbn [b_addr b_block_size b_bytes]. change (gap 1) with 8.
  assert (C : 64 <= c < 2 ^ 63 /\ c mod 64 = 0).
  { unfold c, ceil, u64. change (space_overhead 8) with 64. unfold buffer_limit in E.
    rewrite !(Z.mod_small _ (2 ^ 64)) by (change (2 ^ 64) with 18446744073709551616; rewrite ?Z.mod_small by (change (2 ^ 64) with 18446744073709551616; lia); lia).
    set (x := wanna + 64 + (8 * 2 + 8 * 2) + 64 - 1).
    assert (X : 159 <= x < 2 ^ 32) by (unfold x; change (2 ^ 32) with 4294967296; lia).
    assert (L : Z.land x (2 ^ 64 - 64) = x - x mod 64).
    { replace (2 ^ 64 - 64) with (Z.ldiff (Z.ones 64) (Z.ones 6)) by reflexivity.
      apply Z.bits_inj'. intros n N. rewrite Z.land_spec, Z.ldiff_spec.
      replace (x - x mod 64) with (Z.ldiff x (Z.ones 6)) by (rewrite Z.ldiff_ones_r, Z.shiftl_mul_pow2, Z.shiftr_div_pow2 by lia; change (2 ^ 6) with 64; clearbody x; lia).
      rewrite Z.ldiff_spec. destruct (Z.lt_ge_cases n 64) as [LT|GE].
      - rewrite (Z.ones_spec_low 64) by lia. reflexivity.
      - replace (Z.testbit x n) with false; [reflexivity|]. symmetry. apply Z.bits_above_log2; [lia|].
        apply Z.log2_lt_pow2; [lia|]. eapply Z.lt_le_trans; [apply X|]. apply Z.pow_le_mono_r; lia. }
    rewrite L. clear L. clearbody x. change (2 ^ 63) with 9223372036854775808. change (2 ^ 32) with 4294967296 in X. lia. }
  clearbody c. destruct C as [C1 C2]. change (2 ^ 63) with 9223372036854775808 in C1.
  assert (U : u64 (c - (8 * 2 + 8 * 2)) = c - 32) by (unfold u64; apply Z.mod_small; change (2 ^ 64) with 18446744073709551616; lia).
  rewrite U. unfold asked, u64, guard_space. change (gap 1) with 8. rewrite Z.mod_small by (change (2 ^ 64) with 18446744073709551616; lia).
  clear -C2 B. lia.
Qed.
Example C78_buffers_case : exists b, Hippeus.borrow 8 100 4096 = Some b /\ b_bytes b = 224.
Proof. exists (mkB 4096 240 4104 224 160 4152). split; reflexivity. Qed.

Print Assumptions C78_no_false_alarm.
Print Assumptions C78_base_balance.
Print Assumptions C78_release.
Print Assumptions C78_layout.
Print Assumptions C78_bytes_kept.
Print Assumptions C78_one_byte_noticed.
Print Assumptions C78_damage_noticed.
Print Assumptions C78_second_release_noticed.
Print Assumptions C78_guards_told_apart.
Print Assumptions C78_two_bytes_refuted.
Print Assumptions C49_one_byte_noticed.
Print Assumptions C49_one_bit_noticed.
Print Assumptions C49_two_bytes_refuted.
Print Assumptions C78_limit.
Print Assumptions C78_limit_refuted.
Print Assumptions C78_aligned.
Print Assumptions C78_alignment_refuted.
Print Assumptions C78_buffers_aligned.

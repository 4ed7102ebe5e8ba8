(** Proofs about the guarded allocator: frames, detection of damage, the invariant of a history. *)
From Coq Require Import ZArith List Lia Bool.
From Verif Require Import Base Hippeus HippeusProofs MixProofs Guarded.
Import ListNotations.
Local Open Scope Z_scope.
Ltac Zify.zify_post_hook ::= Z.div_mod_to_equations.

Definition bytes (m : mem) : Prop := forall a, 0 <= m a < 256.
(** ** Memory *)
Lemma put_bytes m a v : bytes m -> bytes (put m a v).
Proof. intros B x. unfold put. destruct (x =? a); [apply Z.mod_pos_bound; lia|apply B]. Qed.
Lemma put_same m a v : put m a v a = v mod 256.
Proof. unfold put. rewrite Z.eqb_refl. reflexivity. Qed.
Lemma put_other m a v x : x <> a -> put m a v x = m x.
Proof. intros N. unfold put. rewrite (proj2 (Z.eqb_neq x a) N). reflexivity. Qed.
Lemma put_word_bytes m a w : bytes m -> bytes (put_word m a w).
Proof. intros B. unfold put_word. repeat apply put_bytes. exact B. Qed.
Lemma put_guard_bytes m a g : bytes m -> bytes (put_guard m a g).
Proof. intros B. unfold put_guard. repeat apply put_word_bytes. exact B. Qed.
Lemma put_word_other m a w x : x < a \/ a + 4 <= x -> put_word m a w x = m x.
Proof. intros N. unfold put_word. rewrite !put_other by lia. reflexivity. Qed.
Lemma put_guard_other m a g x : x < a \/ a + 8 <= x -> put_guard m a g x = m x.
Proof. intros N. unfold put_guard. rewrite !put_word_other by lia. reflexivity. Qed.
Lemma word_frame m m' a : (forall x, a <= x < a + 4 -> m' x = m x) -> word m' a = word m a.
Proof. intros F. unfold word. rewrite !F by lia. reflexivity. Qed.
Lemma word_put_word m a w : 0 <= w < 2 ^ 32 -> word (put_word m a w) a = w.
Proof.
  intros W. unfold word, put_word.
  rewrite (put_other _ (a + 3) _ a), (put_other _ (a + 2) _ a), (put_other _ (a + 1) _ a), put_same by lia.
  rewrite (put_other _ (a + 3) _ (a + 1)), (put_other _ (a + 2) _ (a + 1)), put_same by lia.
  rewrite (put_other _ (a + 3) _ (a + 2)), put_same by lia. rewrite put_same.
  change (2 ^ 32) with 4294967296 in W. change (2 ^ 8) with 256. change (2 ^ 16) with 65536. change (2 ^ 24) with 16777216. lia.
Qed.
Lemma guard_frame m m' a sig : (forall x, a <= x < a + 8 -> m' x = m x) -> guard_ok m' a sig = guard_ok m a sig.
Proof. intros F. unfold guard_ok. rewrite !(word_frame m m') by (intros; apply F; lia). reflexivity. Qed.
Lemma guard_put m a g sig : 0 <= fst g < 2 ^ 32 -> 0 <= snd g < 2 ^ 32 ->
  guard_ok (put_guard m a g) a sig = guard_probe (fst g) (snd g) sig.
Proof.
  intros F S. unfold guard_ok, put_guard. rewrite (word_put_word _ (a + 4)) by exact S.
  rewrite (word_frame (put_word m a (fst g)) (put_word (put_word m a (fst g)) (a + 4) (snd g))) by (intros; apply put_word_other; lia).
  rewrite word_put_word by exact F. reflexivity.
Qed.

(** ** Setting up *)
Definition set_up (sig : Z) (g : Z * Z) : Prop :=
  exists rounds clock, 0 <= clock < 2 ^ 32 /\ guard_setup rounds clock sig = Some g.
Lemma mixup_range c s : 0 <= mixup c s < 2 ^ 32.
Proof. unfold mixup. cbv zeta. apply Z.mod_pos_bound. reflexivity. Qed.
Lemma setup_facts n : forall clock sig g, 0 <= clock < 2 ^ 32 -> guard_setup n clock sig = Some g ->
  0 <= fst g < 2 ^ 32 /\ 0 <= snd g < 2 ^ 32 /\ guard_probe (fst g) (snd g) sig = true.
Proof.
  induction n as [|n IH]; intros clock sig g C H; [discriminate H|]. cbn [guard_setup] in H.
  destruct (fairly clock && fairly (mixup clock sig)) eqn:F.
  - assert (E : g = (clock, mixup clock sig)) by congruence. rewrite E. cbn [fst snd]. split; [exact C|]. split; [apply mixup_range|].
    unfold guard_probe. rewrite F, Z.eqb_refl. reflexivity.
  - apply (IH _ _ _ (Z.mod_pos_bound _ (2 ^ 32) eq_refl) H).
Qed.
Lemma set_up_facts sig g : set_up sig g -> 0 <= fst g < 2 ^ 32 /\ 0 <= snd g < 2 ^ 32 /\ guard_probe (fst g) (snd g) sig = true.
Proof. intros (n & c & C & H). exact (setup_facts n c sig g C H). Qed.

(** ** Damage *)
Lemma probe_word chirp mesh sig : guard_probe chirp mesh sig = true -> mesh = mixup chirp sig.
Proof. unfold guard_probe. rewrite !Bool.andb_true_iff, Z.eqb_eq. tauto. Qed.
Lemma byte_split m a j : 0 <= j <= 3 -> exists r, forall v, 0 <= v < 256 -> word (put m (a + j) v) a = r + v * 2 ^ (8 * j).
Proof.
  intros J. assert (E : j = 0 \/ j = 1 \/ j = 2 \/ j = 3) by lia. destruct E as [-> | [-> | [-> | ->]]].
  - exists (m (a + 1) * 2 ^ 8 + m (a + 2) * 2 ^ 16 + m (a + 3) * 2 ^ 24). intros v V. unfold word. rewrite Z.add_0_r.
    rewrite put_same, !put_other by lia. rewrite Z.mod_small by lia. change (2 ^ (8 * 0)) with 1. ring.
  - exists (m a + m (a + 2) * 2 ^ 16 + m (a + 3) * 2 ^ 24). intros v V. unfold word.
    rewrite put_same, !put_other by lia. rewrite Z.mod_small by lia. change (2 ^ (8 * 1)) with (2 ^ 8). ring.
  - exists (m a + m (a + 1) * 2 ^ 8 + m (a + 3) * 2 ^ 24). intros v V. unfold word.
    rewrite put_same, !put_other by lia. rewrite Z.mod_small by lia. change (2 ^ (8 * 2)) with (2 ^ 16). ring.
  - exists (m a + m (a + 1) * 2 ^ 8 + m (a + 2) * 2 ^ 16). intros v V. unfold word.
    rewrite put_same, !put_other by lia. rewrite Z.mod_small by lia. change (2 ^ (8 * 3)) with (2 ^ 24). ring.
Qed.
Lemma put_self m a x : bytes m -> put m a (m a) x = m x.
Proof. intros B. unfold put. destruct (Z.eqb_spec x a) as [-> |N]; [|reflexivity]. apply Z.mod_small. apply B. Qed.
Lemma guard_byte m a x v sig : bytes m -> guard_ok m a sig = true -> a <= x < a + 8 -> 0 <= v < 256 -> v <> m x ->
  guard_ok (put m x v) a sig = false.
Proof.
  intros B G X V N. apply Bool.not_true_is_false. intros H. unfold guard_ok in G, H.
  apply probe_word in G. apply probe_word in H. destruct (Z.lt_ge_cases x (a + 4)) as [L|U].
  - destruct (byte_split m a (x - a) ltac:(lia)) as (r & R). replace (a + (x - a)) with x in R by ring.
    pose proof (R v V) as RV. pose proof (R (m x) (B x)) as RM.
    rewrite (word_frame m (put m x (m x))) in RM by (intros; apply put_self; exact B).
    rewrite (word_frame m (put m x v) (a + 4)) in H by (intros; apply put_other; lia).
    rewrite H, RV, RM in G. revert G. pose proof (B x) as BX. apply mixup_byte; [lia| | |exact N]; lia.
  - destruct (byte_split m (a + 4) (x - (a + 4)) ltac:(lia)) as (r & R). replace (a + 4 + (x - (a + 4))) with x in R by ring.
    pose proof (R v V) as RV. pose proof (R (m x) (B x)) as RM.
    rewrite (word_frame m (put m x (m x))) in RM by (intros; apply put_self; exact B).
    rewrite (word_frame m (put m x v) a) in H by (intros; apply put_other; lia).
    rewrite <- G, RV, RM in H. assert (P : 2 ^ (8 * (x - (a + 4))) <> 0) by (apply Z.pow_nonzero; lia).
    apply N. apply (Z.mul_reg_r _ _ _ P). lia.
Qed.

(** ** The invariant *)
Definition block_of (k : owned) : Z := o_p k - gap (o_sz k) * o_sz k.
Definition count_of (k : owned) : Z := o_n k + gap (o_sz k) * 2.
Definition end_of (k : owned) : Z := block_of k + count_of k * o_sz k.
Definition given (k : owned) : Z * Z * Z := (block_of k, o_sz k, count_of k).
Definition apart_of (k l : owned) : Prop := end_of k <= block_of l \/ end_of l <= block_of k.
Definition sound (m : mem) (k : owned) : Prop :=
  1 <= o_sz k /\ 1 <= o_n k /\ count_of k < 2 ^ 64 /\
  guard_ok m (o_p k - 8) sig_under = true /\ guard_ok m (o_p k + o_n k * o_sz k) sig_over = true.
Fixpoint pairwise {A} (R : A -> A -> Prop) (l : list A) : Prop :=
  match l with [] => True | x :: l => Forall (R x) l /\ pairwise R l end.
Record HInv (h : heap) : Prop := mkHInv {
  hi_bytes : bytes (h_mem h);
  hi_base : h_base h = map given (h_live h);
  hi_sound : Forall (sound (h_mem h)) (h_live h);
  hi_apart : pairwise apart_of (h_live h) }.

Lemma gap_space sz : 1 <= sz -> 8 <= gap sz * sz < 8 + sz.
Proof. intros H. unfold gap, guard_space. pose proof (Z.div_mod (8 + sz - 1) sz ltac:(lia)). pose proof (Z.mod_pos_bound (8 + sz - 1) sz ltac:(lia)). nia. Qed.
Lemma gap_pos sz : 1 <= sz -> 1 <= gap sz <= 8.
Proof. intros H. unfold gap, guard_space. split; [apply Z.div_le_lower_bound; lia|]. apply Z.div_le_upper_bound; [lia|]. nia. Qed.
(** the parts of a block, in order *)
Lemma parts k : 1 <= o_sz k -> 1 <= o_n k ->
  block_of k <= o_p k - 8 /\ o_p k < o_p k + o_n k * o_sz k /\ o_p k + o_n k * o_sz k + 8 <= end_of k.
Proof.
  intros S N. pose proof (gap_space _ S) as G. unfold end_of, count_of, block_of. nia.
Qed.
Lemma pairwise_middle {A} (R : A -> A -> Prop) (Sy : forall x y, R x y -> R y x) l1 : forall x l2,
  pairwise R (l1 ++ x :: l2) -> pairwise R (l1 ++ l2) /\ Forall (R x) (l1 ++ l2).
Proof.
  induction l1 as [|y l1 IH]; intros x l2 H; cbn [app pairwise] in *.
  - destruct H as [H1 H2]. split; assumption.
  - destruct H as [H1 H2]. destruct (IH _ _ H2) as [I1 I2]. apply Forall_app in H1. destruct H1 as [H3 H4].
    inversion H4; subst. split; [split; [apply Forall_app; split|]; assumption|]. constructor; [apply Sy; assumption|exact I2].
Qed.
Lemma apart_sym k l : apart_of k l -> apart_of l k.
Proof. unfold apart_of. tauto. Qed.
Lemma owned_eqb_eq a b : owned_eqb a b = true <-> a = b.
Proof.
  unfold owned_eqb. rewrite !Bool.andb_true_iff, !Z.eqb_eq. destruct a, b; cbn. split; [intros [[-> ->] ->]; reflexivity|].
  intros E. injection E as -> -> ->. auto.
Qed.
Lemma given_eqb_eq a b : given_eqb a b = true <-> a = b.
Proof.
  unfold given_eqb. destruct a as [[a1 a2] a3], b as [[b1 b2] b3]. rewrite !Bool.andb_true_iff, !Z.eqb_eq.
  split; [intros [[-> ->] ->]; reflexivity|]. intros E. injection E as -> -> ->. auto.
Qed.
Lemma given_inj a b : given a = given b -> a = b.
Proof.
  unfold given, block_of, count_of. destruct a as [s n p], b as [s' n' p']. cbn [o_sz o_n o_p]. intros E.
  injection E as E1 E2 E3. subst s'. f_equal; lia.
Qed.
Lemma drop_split {A} (eqb : A -> A -> bool) (Eq : forall a b, eqb a b = true <-> a = b) x l : In x l ->
  exists l1 l2, l = l1 ++ x :: l2 /\ drop_one eqb x l = Some (l1 ++ l2) /\ ~ In x l1.
Proof.
  induction l as [|y l IH]; intros I; [destruct I|]. cbn [drop_one]. destruct (eqb x y) eqn:E.
  - apply Eq in E. subst y. exists [], l. split; [reflexivity|]. split; [reflexivity|]. intros [].
  - destruct I as [I|I]; [exfalso; subst y; rewrite (proj2 (Eq x x) eq_refl) in E; discriminate E|].
    destruct (IH I) as (l1 & l2 & -> & D & NI). rewrite D. exists (y :: l1), l2. split; [reflexivity|]. split; [reflexivity|].
    intros [J|J]; [|exact (NI J)]. subst y. rewrite (proj2 (Eq x x) eq_refl) in E. discriminate E.
Qed.
Lemma drop_first {A} (eqb : A -> A -> bool) (Eq : forall a b, eqb a b = true <-> a = b) x l1 : forall l2,
  ~ In x l1 -> drop_one eqb x (l1 ++ x :: l2) = Some (l1 ++ l2).
Proof.
  induction l1 as [|y l1 IH]; intros l2 N; cbn [app drop_one].
  - rewrite (proj2 (Eq x x) eq_refl). reflexivity.
  - destruct (eqb x y) eqn:E; [apply Eq in E; exfalso; apply N; left; congruence|]. rewrite IH; [reflexivity|].
    intros I. apply N. right. exact I.
Qed.

(** ** What one may do *)
Definition fresh (h : heap) (sz n block : Z) : Prop :=
  Forall (fun '(b, s, c) => block + asked sz n * sz <= b \/ b + c * s <= block) (h_base h).
Definition legal (h : heap) (o : hop) : Prop :=
  match o with
  | HTake base_max sz n block gu go =>
      1 <= sz /\ 0 <= n /\ gap sz * 2 <= base_max < 2 ^ 64 /\ set_up sig_under gu /\ set_up sig_over go /\
      (1 <= n <= max_size base_max sz -> fresh h sz n block)
  | HPut a v => exists k, In k (h_live h) /\ o_p k <= a < o_p k + o_n k * o_sz k
  | HBack k => In k (h_live h)
  end.
Lemma asked_small base_max sz n : 1 <= sz -> 0 <= n -> gap sz * 2 <= base_max < 2 ^ 64 -> n <= max_size base_max sz ->
  asked sz n = n + gap sz * 2 /\ n + gap sz * 2 <= base_max.
Proof.
  intros S N B M. pose proof (gap_pos sz S) as G. unfold max_size, u64 in M. rewrite Z.mod_small in M by lia.
  unfold asked, u64. rewrite Z.mod_small by lia. lia.
Qed.
Lemma sound_frame m m' k : (forall x, block_of k <= x < end_of k -> x < o_p k \/ o_p k + o_n k * o_sz k <= x -> m' x = m x) ->
  sound m k -> sound m' k.
Proof.
  intros F (S & N & C & G1 & G2). pose proof (parts k S N) as P. split; [exact S|]. split; [exact N|]. split; [exact C|].
  split; [rewrite <- G1|rewrite <- G2]; apply guard_frame; intros x X; apply F; lia.
Qed.
Lemma sounds_frame m m' l : (forall k, In k l -> forall x, block_of k <= x < end_of k -> x < o_p k \/ o_p k + o_n k * o_sz k <= x -> m' x = m x) ->
  Forall (sound m) l -> Forall (sound m') l.
Proof.
  intros F H. apply Forall_forall. intros k I. apply (sound_frame m); [exact (F k I)|]. exact (proj1 (Forall_forall _ _) H k I).
Qed.
Lemma pairwise_in {A} (R : A -> A -> Prop) (Sy : forall x y, R x y -> R y x) l a b :
  pairwise R l -> In a l -> In b l -> a = b \/ R a b.
Proof.
  induction l as [|x l IH]; intros P A1 B1; [destruct A1|]. cbn [pairwise] in P. destruct P as [P1 P2]. rewrite Forall_forall in P1.
  destruct A1 as [-> |A1], B1 as [-> |B1]; [left; reflexivity|right; apply P1; exact B1|right; apply Sy, P1; exact A1|].
  apply IH; assumption.
Qed.

Theorem step_keeps h o : HInv h -> legal h o -> exists h', hstep h o = Some h' /\ HInv h'.
Proof.
  intros I L. destruct o as [base_max sz n block gu go|a v|k]; cbn [hstep legal] in *.
  - destruct L as (S & N & B & U & O & F). unfold allocate. destruct ((n =? 0) || (n >? max_size base_max sz)) eqn:E.
    + exists h. split; [reflexivity|exact I].
    + apply Bool.orb_false_iff in E. destruct E as [E1 E2]. apply Z.eqb_neq in E1. rewrite Z.gtb_ltb in E2. apply Z.ltb_ge in E2.
      destruct (asked_small base_max sz n S N B E2) as [A1 A2]. specialize (F ltac:(lia)). unfold fresh in F. cbv zeta.
      set (p := block + gap sz * sz). set (m' := put_guard (put_guard (h_mem h) (p - guard_space) gu) (p + n * sz) go).
      eexists. split; [reflexivity|]. set (k := mkOwned sz n p).
      assert (BK : block_of k = block) by (unfold block_of, k, p; cbn [o_sz o_p]; lia).
      assert (CK : count_of k = n + gap sz * 2) by reflexivity.
      assert (SK : o_sz k = sz) by reflexivity.
      assert (EK : end_of k = block + (n + gap sz * 2) * sz) by (unfold end_of; rewrite BK, CK; reflexivity).
      pose proof (parts k S ltac:(unfold k; cbn [o_n]; lia)) as P. cbn [o_p o_n] in P.
      change (o_p k) with p in P. change (o_n k) with n in P. change (o_sz k) with sz in P.
      rewrite (hi_base h I), A1 in F. rewrite Forall_map in F.
      assert (AP : Forall (apart_of k) (h_live h)).
      { apply Forall_forall. intros l IL. rewrite Forall_forall in F. specialize (F l IL). unfold given in F.
        unfold apart_of. rewrite EK, BK. unfold end_of at 1. lia. }
      assert (FR : forall x, x < block \/ end_of k <= x -> m' x = h_mem h x).
      { intros x X. unfold m', guard_space. rewrite put_guard_other by lia. apply put_guard_other. lia. }
      destruct (set_up_facts _ _ U) as (U1 & U2 & U3). destruct (set_up_facts _ _ O) as (O1 & O2 & O3).
      constructor; cbn [h_mem h_live h_base].
      * unfold m'. apply put_guard_bytes, put_guard_bytes, (hi_bytes h I).
      * cbn [map]. rewrite (hi_base h I), A1. unfold given at 2. rewrite BK, CK. reflexivity.
      * constructor.
        -- split; [exact S|]. split; [unfold k; cbn [o_n]; lia|]. split; [rewrite CK; lia|].
           change (o_p k) with p. change (o_n k) with n. change (o_sz k) with sz. unfold m', guard_space. split.
           ++ rewrite (guard_frame (put_guard (h_mem h) (p - 8) gu)) by (intros x X; apply put_guard_other; nia).
              rewrite guard_put by assumption. exact U3.
           ++ rewrite guard_put by assumption. exact O3.
        -- apply (sounds_frame (h_mem h)); [|exact (hi_sound h I)]. intros l IL x X _. apply FR.
           rewrite Forall_forall in AP. specialize (AP l IL). unfold apart_of in AP. rewrite <- BK. lia.
      * cbn [pairwise]. split; [exact AP|exact (hi_apart h I)].
  - destruct L as (k & IK & A). eexists. split; [reflexivity|]. constructor; cbn [h_mem h_live h_base].
    + apply put_bytes, (hi_bytes h I).
    + exact (hi_base h I).
    + apply (sounds_frame (h_mem h)); [|exact (hi_sound h I)]. intros l IL x X Y. apply put_other.
      assert (SK : sound (h_mem h) k) by exact (proj1 (Forall_forall _ _) (hi_sound h I) k IK).
      destruct SK as (S & N & _). pose proof (parts k S N) as P.
      destruct (pairwise_in apart_of apart_sym _ k l (hi_apart h I) IK IL) as [E|E]; [subst l|unfold apart_of in E]; lia.
    + exact (hi_apart h I).
  - destruct (drop_split owned_eqb owned_eqb_eq k (h_live h) L) as (l1 & l2 & E & D & NI). rewrite D.
    assert (SK : sound (h_mem h) k) by exact (proj1 (Forall_forall _ _) (hi_sound h I) k L).
    destruct SK as (S & N & C & G1 & G2). pose proof (parts k S N) as P. pose proof (gap_pos _ S) as GP.
    unfold deallocate. replace (o_n k >? 0) with true by lia. unfold guard_space. rewrite G1, G2. cbn [negb].
    assert (AS : asked (o_sz k) (o_n k) = count_of k) by (unfold asked, u64; apply Z.mod_small; unfold count_of in *; lia).
    rewrite AS. change (o_p k - gap (o_sz k) * o_sz k, o_sz k, count_of k) with (given k).
    rewrite (hi_base h I), E, map_app. cbn [map]. rewrite (drop_first given_eqb given_eqb_eq).
    2:{ intros J. apply in_map_iff in J. destruct J as (y & Y & IY). apply given_inj in Y. subst y. exact (NI IY). }
    eexists. split; [reflexivity|]. pose proof (hi_apart h I) as AP. rewrite E in AP.
    apply (pairwise_middle apart_of apart_sym) in AP. destruct AP as [AP1 AP2].
    constructor; cbn [h_mem h_live h_base].
    + apply put_guard_bytes, put_guard_bytes, (hi_bytes h I).
    + rewrite map_app. reflexivity.
    + assert (SO : Forall (sound (h_mem h)) (l1 ++ l2)).
      { pose proof (hi_sound h I) as Q. rewrite E in Q. apply Forall_app in Q. destruct Q as [Q1 Q2]. inversion Q2; subst.
        apply Forall_app. split; assumption. }
      apply (sounds_frame (h_mem h)); [|exact SO]. intros l IL x X _. rewrite Forall_forall in AP2. specialize (AP2 l IL).
      unfold apart_of in AP2. rewrite put_guard_other by lia. apply put_guard_other. lia.
    + exact AP1.
Qed.

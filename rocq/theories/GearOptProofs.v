(** * GearOptProofs: compaction keeps the fields (proofs). *)
From Verif Require Import Base Tag TagProofs Codec Gear GearBase GearSearch GearProofs Tuple TupleProofs TupleSteps TupleView
  Hippeus Scan Audit Image ImageProofs GearOpt.
From Coq Require Import ZifyBool ZifyNat Permutation Sorted.
Ltac Zify.zify_post_hook ::= Z.div_mod_to_equations.

(** ** overlapped_copy is memmove when it moves down *)
Definition dat_only (s s' : st) : Prop := exists d, s' = with_dat s d.
Lemma copy_up_only n : forall s dst src, exists d, copy_up s dst src n = with_dat s d.
Proof.
  induction n as [|n IH]; intros s dst src; cbn [copy_up].
  - exists (dat s). destruct s. reflexivity.
  - destruct (IH (with_dat s (fun x => if x =? dst then word s src else dat s x)) (dst + 1) (src + 1)) as [d ->]. exists d. destruct s. reflexivity.
Qed.
Lemma copy_up_dat n : forall s dst src, 0 <= pp s -> base s <= dst -> dst < src -> forall x,
  dat (copy_up s dst src n) x = if (dst <=? x) && (x <? dst + Z.of_nat n) then dat s (src + (x - dst)) else dat s x.
Proof.
  induction n as [|n IH]; intros s dst src P B D x; cbn [copy_up].
  - replace ((dst <=? x) && (x <? dst + Z.of_nat 0)) with false by lia. reflexivity.
  - rewrite IH by (cbn [pp base with_dat pivot]; unfold base in *; cbn [pp pivot with_dat]; lia). cbn [dat with_dat].
    rewrite word_data by lia.
    destruct (Z.eq_dec x dst) as [->|N].
    + replace ((dst + 1 <=? dst) && (dst <? dst + 1 + Z.of_nat n)) with false by lia.
      replace ((dst <=? dst) && (dst <? dst + Z.of_nat (S n))) with true by lia.
      rewrite Z.eqb_refl. f_equal. lia.
    + replace ((dst <=? x) && (x <? dst + Z.of_nat (S n))) with ((dst + 1 <=? x) && (x <? dst + 1 + Z.of_nat n)) by lia.
      destruct ((dst + 1 <=? x) && (x <? dst + 1 + Z.of_nat n)) eqn:E.
      * replace (src + 1 + (x - (dst + 1)) =? dst) with false by lia. f_equal. lia.
      * replace (x =? dst) with false by lia. reflexivity.
Qed.
(** the copied units, for a move down of any length *)
Theorem overlapped_copy_spec s dst src n : 0 <= pp s -> base s <= dst -> dst < src -> 0 <= n ->
  exists d, overlapped_copy s dst src n = with_dat s d /\
  forall x, d x = if (dst <=? x) && (x <? dst + n) then dat s (src + (x - dst)) else dat s x.
Proof.
  intros P B D Hn. unfold overlapped_copy. destruct ((1 <=? n) && (n <=? 16)) eqn:E.
  - destruct (copy_up_only (Z.to_nat n) s dst src) as [d Ed]. exists d. split; [exact Ed|]. intros x.
    pose proof (copy_up_dat (Z.to_nat n) s dst src P B D x) as C. rewrite Ed in C. cbn [dat with_dat] in C. rewrite C.
    replace (Z.of_nat (Z.to_nat n)) with n by lia. reflexivity.
  - unfold memmove_units. eexists. split; [reflexivity|]. intros x. cbv beta.
    destruct ((dst <=? x) && (x <? dst + n)) eqn:X; [|reflexivity]. apply word_data; lia.
Qed.

(** ** Dropping holes from the index *)
Definition kept_from (s : st) (src n : nat) : list nat := filter (fun k => negb (is_hole (idx s k))) (seq src n).
Definition kept (s : st) : list nat := kept_from s 0 (cnt s).
Lemma squeeze_only n : forall src dst s, exists f, squeeze n src dst s = with_idx s f.
Proof.
  induction n as [|n IH]; intros src dst s; cbn [squeeze].
  - exists (idx s). destruct s. reflexivity.
  - destruct (is_hole (idx s src)); [apply IH|]. destruct (Nat.eqb src dst); [apply IH|].
    destruct (IH (S src) (S dst) (set_ent s dst (shifted (idx s src) (Z.of_nat src - Z.of_nat dst)))) as [f ->]. exists f. destruct s. reflexivity.
Qed.
Lemma kept_from_ext s s' src n : (forall k, (src <= k < src + n)%nat -> idx s' k = idx s k) -> kept_from s' src n = kept_from s src n.
Proof.
  revert src. induction n as [|n IH]; intros src H; [reflexivity|]. unfold kept_from in *. cbn [seq filter].
  rewrite (H src) by lia. rewrite (IH (S src)) by (intros; apply H; lia). reflexivity.
Qed.
Lemma squeeze_spec n : forall src dst s, (dst <= src)%nat ->
  let s' := squeeze n src dst s in
  (forall k, (k < dst)%nat -> idx s' k = idx s k) /\
  forall i, (i < length (kept_from s src n))%nat ->
    let k := nth i (kept_from s src n) 0%nat in
    idx s' (dst + i)%nat = shifted (idx s k) (Z.of_nat k - Z.of_nat (dst + i)).
Proof.
  induction n as [|n IH]; intros src dst s Hd; cbn [squeeze]; cbv zeta.
  - split; [reflexivity|]. unfold kept_from. cbn [seq filter length]. lia.
  - unfold kept_from. cbn [seq filter]. fold (kept_from s (S src) n). destruct (is_hole (idx s src)) eqn:H; cbn [negb].
    + destruct (IH (S src) dst s ltac:(lia)) as [I1 I2]. split; [exact I1|]. exact I2.
    + set (s1 := if Nat.eqb src dst then s else _).
      assert (E1 : forall k, k <> dst -> idx s1 k = idx s k).
      { intros k N. unfold s1. destruct (Nat.eqb_spec src dst); [reflexivity|]. cbn [set_ent idx with_idx]. apply fupd_other. assumption. }
      assert (E2 : idx s1 dst = shifted (idx s src) (Z.of_nat src - Z.of_nat dst)).
      { unfold s1. destruct (Nat.eqb_spec src dst) as [->|N]; [unfold shifted; replace (Z.of_nat dst - Z.of_nat dst =? 0) with true by lia; reflexivity|].
        cbn [set_ent idx with_idx]. apply fupd_same. }
      destruct (IH (S src) (S dst) s1 ltac:(lia)) as [I1 I2].
      assert (EK : kept_from s1 (S src) n = kept_from s (S src) n) by (apply kept_from_ext; intros; apply E1; lia).
      rewrite EK in I2. split.
      * intros k Hk. rewrite I1 by lia. apply E1. lia.
      * intros [|i] Hi; cbn [nth length] in *.
        -- rewrite Nat.add_0_r. rewrite I1 by lia. exact E2.
        -- specialize (I2 i ltac:(lia)). cbv zeta in I2. replace (dst + S i)%nat with (S dst + i)%nat by lia. rewrite I2.
           assert (In (nth i (kept_from s (S src) n) 0%nat) (kept_from s (S src) n)) as Ii by (apply nth_In; lia).
           apply filter_In in Ii as [Ii _]. apply in_seq in Ii. rewrite E1 by lia. reflexivity.
Qed.
Lemma kept_in s k : In k (kept s) <-> live s (RL k).
Proof.
  unfold kept, kept_from. rewrite filter_In, in_seq. unfold live. destruct (is_hole (idx s k)); cbn [negb]; split; intros [H1 H2]; split; (congruence || lia).
Qed.
Lemma kept_nodup s : NoDup (kept s).
Proof. apply NoDup_filter, seq_NoDup. Qed.

(** sums over lists *)
Fixpoint lsum {A} (f : A -> Z) (l : list A) : Z := match l with [] => 0 | x :: l => f x + lsum f l end.
Lemma lsum_app {A} (f : A -> Z) l l' : lsum f (l ++ l') = lsum f l + lsum f l'.
Proof. induction l as [|x l IH]; cbn [app lsum]; [reflexivity|]. rewrite IH. lia. Qed.
Lemma lsum_perm {A} (f : A -> Z) l l' : Permutation l l' -> lsum f l = lsum f l'.
Proof. induction 1; cbn [lsum]; lia. Qed.
Lemma lsum_map {A B} (f : B -> Z) (g : A -> B) l : lsum f (map g l) = lsum (fun x => f (g x)) l.
Proof. induction l as [|x l IH]; cbn [map lsum]; [reflexivity|]. rewrite IH. reflexivity. Qed.
Lemma lsum_ext {A} (f g : A -> Z) l : (forall x, In x l -> f x = g x) -> lsum f l = lsum g l.
Proof. induction l as [|x l IH]; cbn [lsum In]; intros H; [reflexivity|]. rewrite IH, H by auto. reflexivity. Qed.
Lemma lsum_seq f n : lsum f (seq 0 n) = sumn n f.
Proof. induction n as [|n IH]; [reflexivity|]. rewrite seq_S, lsum_app, Nat.add_0_l. cbn [lsum sumn]. rewrite IH. lia. Qed.
Lemma lsum_filter {A} (f : A -> Z) p l : (forall x, In x l -> p x = false -> f x = 0) -> lsum f (filter p l) = lsum f l.
Proof.
  induction l as [|x l IH]; cbn [filter lsum In]; intros H; [reflexivity|].
  destruct (p x) eqn:E; cbn [lsum]; rewrite IH by (intros; apply H; auto); [reflexivity|]. rewrite H by auto. lia.
Qed.
Lemma lsum_nth {A} (f : A -> Z) l d : lsum f l = sumn (length l) (fun i => f (nth i l d)).
Proof.
  induction l as [|x l IH] using rev_ind; [reflexivity|]. rewrite lsum_app, app_length. cbn [lsum length]. rewrite Nat.add_1_r. cbn [sumn].
  rewrite app_nth2, Nat.sub_diag by lia. cbn [nth]. rewrite IH. f_equal; [|lia]. apply sumn_ext. intros i Hi. rewrite app_nth1 by assumption. reflexivity.
Qed.
Lemma lsum_length {A} (p : A -> bool) l : lsum (fun x => Z.b2z (p x)) l = Z.of_nat (length (filter p l)).
Proof. induction l as [|x l IH]; [reflexivity|]. cbn [lsum filter]. destruct (p x); cbn [length Z.b2z]; lia. Qed.

Lemma kept_length s L : Inv0 s L -> Z.of_nat (length (kept s)) = Z.of_nat (cnt s) - jc s.
Proof.
  intros H. pose proof (i_jc _ _ _ _ _ _ H) as J. rewrite <- lsum_seq in J. unfold hcount in J.
  unfold kept, kept_from. rewrite <- lsum_length.
  assert (G : forall l, lsum (fun x => Z.b2z (negb (is_hole (idx s x)))) l + lsum (fun x => Z.b2z (is_hole (idx s x))) l = Z.of_nat (length l)).
  { induction l as [|x l IH]; cbn [lsum length]; [reflexivity|]. destruct (is_hole (idx s x)); cbn [negb Z.b2z]; lia. }
  specialize (G (seq 0 (cnt s))). rewrite seq_length in G. lia.
Qed.

(** ** Everything but offsets and payload units stays *)
Record frame (s s' : st) : Prop := {
  fr_cnt : cnt s' = cnt s; fr_gid : forall k, gid (idx s' k) = gid (idx s k);
  fr_tail : tail s' = tail s; fr_jc : jc s' = jc s; fr_jv : jv s' = jv s; fr_pivot : pivot s' = pivot s; fr_end : end_ s' = end_ s;
  fr_pp : pp s' = pp s; fr_nslots : nslots s' = nslots s; fr_soff : soff s' = soff s; fr_stype : stype s' = stype s
}.
Lemma frame_refl s : frame s s. Proof. constructor; auto. Qed.
Lemma frame_trans a b c : frame a b -> frame b c -> frame a c.
Proof. intros [] []. constructor; intros; congruence. Qed.
Lemma frame_set s r v : frame s (set_rrel s r v).
Proof.
  destruct r as [k|j]; constructor; try reflexivity. intros i. cbn [set_rrel set_ent idx with_idx]. unfold fupd. destruct (Nat.eqb_spec i k) as [->|]; reflexivity.
Qed.
Lemma frame_dat s d : frame s (with_dat s d). Proof. constructor; reflexivity. Qed.
Lemma frame_own s s' r : frame s s' -> rown s' r = rown s r.
Proof. intros F. destruct r; unfold rown, own; rewrite (fr_pivot _ _ F), ?(fr_soff _ _ F); reflexivity. Qed.
Lemma frame_head s s' : frame s s' -> head s' = head s /\ base s' = base s.
Proof. intros F. unfold head, base. rewrite (fr_pivot _ _ F), (fr_cnt _ _ F), (fr_pp _ _ F). auto. Qed.
Lemma rrel_set s r v : rrel (set_rrel s r v) r = v.
Proof. destruct r; cbn [set_rrel rrel set_ent idx with_idx pre with_pre]; rewrite fupd_same; reflexivity. Qed.
Lemma rrel_set_other s r v r' : r' <> r -> rrel (set_rrel s r v) r' = rrel s r'.
Proof.
  intros N. destruct r as [k|j], r' as [k'|j']; cbn [set_rrel rrel set_ent idx with_idx pre with_pre]; try reflexivity; rewrite fupd_other by congruence; reflexivity.
Qed.
Lemma dat_set s r v : dat (set_rrel s r v) = dat s. Proof. destruct r; reflexivity. Qed.
Lemma rrel_dat s r d : rrel (with_dat s d) r = rrel s r. Proof. destruct r; reflexivity. Qed.

(** ** Moving a sorted list of disjoint chunks down *)
Definition place (s : st) (c : chunk) : Prop :=
  raddr s (c_ref c) = chunk_src s c /\ 0 < c_len c /\ 0 <= rown s (c_ref c) /\ rown s (c_ref c) < base s /\ chunk_src s c <= 65535.
Lemma move_chunks_spec cs : forall s dst, 0 <= pp s -> base s <= dst ->
  (forall c, In c cs -> place s c /\ dst <= chunk_src s c) ->
  StronglySorted (fun a b => chunk_src s a + c_len a <= chunk_src s b) cs ->
  NoDup (map c_ref cs) ->
  let s' := snd (move_chunks s dst cs) in
  fst (move_chunks s dst cs) = dst + lsum c_len cs /\
  frame s s' /\
  (forall x, x < dst -> dat s' x = dat s x) /\
  (forall r, ~ In r (map c_ref cs) -> rrel s' r = rrel s r) /\
  forall front c back, cs = front ++ c :: back ->
    raddr s' (c_ref c) = dst + lsum c_len front /\
    forall i, 0 <= i < c_len c -> dat s' (dst + lsum c_len front + i) = dat s (chunk_src s c + i).
Proof.
  induction cs as [|c cs IH]; intros s dst HP HB HC HS HN; cbv zeta.
  - unfold move_chunks. cbn [fold_left fst snd lsum]. split; [lia|]. split; [apply frame_refl|]. repeat split; auto.
    all: intros; destruct front; discriminate.
  - destruct (HC c (or_introl eq_refl)) as [(P1 & P2 & P3 & P4 & P5) P6].
    apply StronglySorted_inv in HS as [HS HF]. inversion HN as [|? ? Nin HN']; subst. rewrite Forall_forall in HF.
    unfold move_chunks in *. cbn [fold_left map].
    set (m := move_chunk (dst, s) c). destruct m as [d1 s1] eqn:Em. unfold m, move_chunk in Em.
    assert (Ed : d1 = dst + c_len c) by congruence.
    assert (H1 : frame s s1 /\ (forall r, r <> c_ref c -> rrel s1 r = rrel s r) /\ raddr s1 (c_ref c) = dst /\
      (forall x, dat s1 x = if (dst <=? x) && (x <? dst + c_len c) then dat s (chunk_src s c + (x - dst)) else dat s x)).
    { injection Em as _ <-. destruct (chunk_src s c =? dst) eqn:E.
      - split; [apply frame_refl|]. split; [reflexivity|]. split; [lia|]. intros x. destruct ((dst <=? x) && (x <? dst + c_len c)); [|reflexivity]. f_equal. lia.
      - set (s2 := set_rrel s (c_ref c) _). pose proof (frame_set s (c_ref c) (u16 (rrel s (c_ref c) - (chunk_src s c - dst)))) as F2. fold s2 in F2.
        destruct (frame_head _ _ F2) as [H2 B2].
        destruct (overlapped_copy_spec s2 dst (chunk_src s c) (c_len c)) as (d & -> & Hd); [rewrite (fr_pp _ _ F2); assumption|lia|lia|lia|].
        split; [eapply frame_trans; [exact F2|apply frame_dat]|]. split; [intros r N; rewrite rrel_dat; apply rrel_set_other; assumption|].
        split.
        + unfold raddr. rewrite rrel_dat. replace (rrel s2 (c_ref c)) with (u16 (rrel s (c_ref c) - (chunk_src s c - dst))) by (symmetry; apply rrel_set). unfold raddr in P1. rewrite (frame_own s) by (eapply frame_trans; [exact F2|apply frame_dat]).
          unfold u16. change (2 ^ 16) with 65536. lia.
        + intros x. cbn [dat with_dat]. rewrite Hd. unfold s2. rewrite dat_set. reflexivity. }
    destruct H1 as (F1 & R1 & A1 & D1). destruct (frame_head _ _ F1) as [Hh Hb].
    assert (ES : forall c', chunk_src s1 c' = chunk_src s c') by (intros c'; unfold chunk_src; rewrite Hh; reflexivity).
    specialize (IH s1 d1). cbv zeta in IH. rewrite (fr_pp _ _ F1), Hb in IH.
    destruct IH as (I1 & I2 & I3 & I4 & I5).
    { assumption. } { lia. }
    { intros c' Hc'. destruct (HC c' (or_intror Hc')) as [(Q1 & Q2 & Q3 & Q4 & Q5) Q6]. pose proof (HF c' Hc').
      assert (Nc : c_ref c' <> c_ref c). { intros X. apply Nin. rewrite <- X. apply in_map. assumption. }
      unfold place. rewrite ES, Hb, (frame_own s s1) by assumption. unfold raddr. rewrite R1, (frame_own s s1) by assumption. unfold raddr in Q1.
      repeat split; try assumption. lia. }
    { clear - HS ES. induction HS as [|a l HS IH HF]; constructor; [assumption|]. rewrite Forall_forall in *. intros b Hb. rewrite !ES. apply HF. assumption. }
    { assumption. }
    set (s' := snd (fold_left move_chunk cs (d1, s1))) in *.
    split; [rewrite I1; cbn [lsum]; lia|]. split; [eapply frame_trans; eassumption|].
    split; [intros x Hx; rewrite I3, D1 by lia; replace ((dst <=? x) && (x <? dst + c_len c)) with false by lia; reflexivity|].
    split.
    { intros r Hr. cbn [In] in Hr. rewrite I4 by tauto. apply R1. intros X. apply Hr. left. congruence. }
    intros [|c0 front] c' back E; cbn [app] in E; injection E as -> E.
    + cbn [lsum]. subst back. split.
      * unfold raddr. rewrite I4 by assumption. rewrite (frame_own s1 s') by assumption. fold (raddr s1 (c_ref c')). lia.
      * intros i Hi. rewrite I3 by lia. rewrite D1. replace ((dst <=? dst + 0 + i) && (dst + 0 + i <? dst + c_len c')) with true by lia. f_equal. lia.
    + destruct (I5 front c' back E) as [J1 J2]. cbn [lsum]. split; [rewrite J1; lia|].
      intros i Hi. replace (dst + (c_len c0 + lsum c_len front) + i) with (d1 + lsum c_len front + i) by lia. rewrite J2 by assumption. rewrite ES, D1.
      assert (Hc' : In c' cs) by (rewrite E; apply in_or_app; right; left; reflexivity).
      pose proof (HF c' Hc'). replace ((dst <=? chunk_src s c' + i) && (chunk_src s c' + i <? dst + c_len c0)) with false by lia. reflexivity.
Qed.

(** ** The index without holes *)
Definition kth (s : st) (i : nat) : nat := nth i (kept s) 0%nat.
Record shrunk (s s1 : st) : Prop := {
  sh_cnt : cnt s1 = length (kept s); sh_jc : jc s1 = 0;
  sh_gid : forall i, (i < cnt s1)%nat -> gid (idx s1 i) = gid (idx s (kth s i));
  sh_inp : forall i, (i < cnt s1)%nat -> is_inplaced_genus (egenus (idx s1 i)) = true -> rel (idx s1 i) = rel (idx s (kth s i));
  sh_ref : forall i, (i < cnt s1)%nat -> is_inplaced_genus (egenus (idx s1 i)) = false ->
    (rel (idx s1 i) = 0 <-> rel (idx s (kth s i)) = 0) /\ (rel (idx s1 i) <> 0 -> addr s1 i = addr s (kth s i));
  sh_rng : forall i, (i < cnt s1)%nat -> 0 <= rel (idx s1 i) < 65536;
  sh_pre : pre s1 = pre s; sh_dat : dat s1 = dat s; sh_tail : tail s1 = tail s; sh_jv : jv s1 = jv s;
  sh_pivot : pivot s1 = pivot s; sh_end : end_ s1 = end_ s; sh_pp : pp s1 = pp s;
  sh_nslots : nslots s1 = nslots s; sh_soff : soff s1 = soff s; sh_stype : stype s1 = stype s
}.
Lemma kth_live s i : (i < length (kept s))%nat -> live s (RL (kth s i)).
Proof. intros H. apply kept_in. apply nth_In. assumption. Qed.
Lemma kept_all s : (forall k, (k < cnt s)%nat -> is_hole (idx s k) = false) -> kept s = seq 0 (cnt s).
Proof.
  intros H. unfold kept, kept_from. assert (G : forall l, (forall k, In k l -> (k < cnt s)%nat) -> filter (fun k => negb (is_hole (idx s k))) l = l).
  { induction l as [|x l IH]; intros Hl; [reflexivity|]. cbn [filter]. rewrite H by (apply Hl; left; reflexivity). cbn [negb]. f_equal. apply IH. intros; apply Hl; right; assumption. }
  apply G. intros k Hk. apply in_seq in Hk. lia.
Qed.
Lemma sumn_zero_inv n f : (forall k, (k < n)%nat -> 0 <= f k) -> sumn n f = 0 -> forall k, (k < n)%nat -> f k = 0.
Proof. intros H E k Hk. pose proof (sumn_ge1 n f k Hk H). specialize (H k Hk). lia. Qed.
Lemma no_holes s L : Inv0 s L -> jc s = 0 -> forall k, (k < cnt s)%nat -> is_hole (idx s k) = false.
Proof.
  intros H J k Hk. pose proof (i_jc _ _ _ _ _ _ H) as E. rewrite J, Z.add_0_r in E.
  assert (NN : forall k, (k < cnt s)%nat -> 0 <= hcount s k) by (intros i _; unfold hcount; destruct (is_hole (idx s i)); cbn; lia).
  pose proof (sumn_zero_inv _ _ NN E k Hk) as Z0. unfold hcount in Z0.
  destruct (is_hole (idx s k)); [discriminate|reflexivity].
Qed.

(** the condition under which step one is right: no variable-length field of the index without payload *)
Definition paid_index (s : st) : Prop := forall k, live s (RL k) -> stretchy_ref s (RL k) = true -> rel (idx s k) <> 0.
Lemma rel_pos s k : TInv s -> live s (RL k) -> (stretchy_ref s (RL k) = true -> rel (idx s k) <> 0) -> is_inplaced_genus (egenus (idx s k)) = false ->
  base s <= addr s k /\ addr s k + plen s (RL k) <= tail s /\ 0 < plen s (RL k).
Proof.
  intros T Lk Hp Hi.
  assert (Pos : 0 < plen s (RL k)).
  { destruct (stretchy_ref s (RL k)) eqn:Es; [apply (t_pos _ T); [assumption|assumption|apply Hp; reflexivity]|].
    assert (F : fixed_genus (egenus (idx s k)) = true) by (unfold stretchy_ref in Es; cbn [rgenus] in Es; destruct (fixed_genus (egenus (idx s k))); [reflexivity|discriminate]).
    unfold plen. cbn [rgenus]. rewrite F. apply fixed_units; [assumption| |assumption].
    apply (live_genus s k _ (t_inv _ T) Lk). }
  pose proof (live_bounds s (plen s) (v_acc _ _ (t_inv _ T)) (RL k) Lk Pos) as B. unfold raddr in B. cbn [rown rrel] in B. unfold addr. lia.
Qed.
Lemma drop_shrunk s : TInv s -> (jc s <> 0 -> paid_index s) -> shrunk s (drop_holes s).
Proof.
  intros T Hp. pose proof (v_acc _ _ (t_inv _ T)) as A. pose proof (kept_length s _ A) as KL. pose proof (i_cfg _ _ _ _ _ _ A) as C.
  unfold drop_holes. destruct (jc s =? 0) eqn:J.
  - assert (K : kept s = seq 0 (cnt s)) by (apply kept_all, (no_holes s _ A); lia).
    assert (Ek : forall i, (i < cnt s)%nat -> kth s i = i) by (intros i Hi; unfold kth; rewrite K, seq_nth by assumption; reflexivity).
    constructor; try reflexivity; [rewrite K, seq_length; reflexivity|lia|..]; intros i Hi; rewrite ?Ek by assumption; try reflexivity; [tauto|].
    apply (i_ent _ _ _ _ _ _ A i Hi).
  - apply Z.eqb_neq in J. specialize (Hp J). destruct (squeeze_only (cnt s) 0 0 s) as [f Ef]. destruct (squeeze_spec (cnt s) 0 0 s (le_n _)) as [_ S]. cbv zeta in S.
    rewrite Ef in *. cbn [idx with_idx] in S. fold (kept s) in S. cbn [Nat.add] in S.
    set (s1 := with_jc (with_cnt (with_idx s f) (Z.to_nat (Z.of_nat (cnt s) - jc s))) 0).
    assert (Ec : cnt s1 = length (kept s)) by (unfold s1; cbn [cnt with_jc with_cnt]; lia).
    assert (Ei : forall i, (i < cnt s1)%nat -> idx s1 i = shifted (idx s (kth s i)) (Z.of_nat (kth s i) - Z.of_nat i)).
    { intros i Hi. unfold s1 at 1. cbn [idx with_jc with_cnt with_idx]. apply S. lia. }
    assert (Eg : forall i, (i < cnt s1)%nat -> gid (idx s1 i) = gid (idx s (kth s i))).
    { intros i Hi. rewrite Ei by assumption. unfold shifted. destruct (_ =? 0); [reflexivity|]. destruct (is_inplaced_genus _); reflexivity. }
    assert (Er : forall i, (i < cnt s1)%nat -> 0 <= rel (idx s1 i) < 65536 /\
       (is_inplaced_genus (egenus (idx s1 i)) = true -> rel (idx s1 i) = rel (idx s (kth s i))) /\
       (is_inplaced_genus (egenus (idx s1 i)) = false -> rel (idx s1 i) <> 0 /\ rel (idx s (kth s i)) <> 0 /\ addr s1 i = addr s (kth s i))).
    { intros i Hi. assert (Lk : live s (RL (kth s i))) by (apply kth_live; lia). destruct Lk as [Lk1 Lk2].
      pose proof (i_ent _ _ _ _ _ _ A _ Lk1) as (R & _). assert (Eg' : egenus (idx s1 i) = egenus (idx s (kth s i))) by (unfold egenus; rewrite Eg by assumption; reflexivity).
      rewrite Eg'. unfold addr, own. replace (pivot s1) with (pivot s) by reflexivity. rewrite Ei by assumption. unfold shifted.
      destruct (is_inplaced_genus (egenus (idx s (kth s i)))) eqn:EI.
      - destruct (_ =? 0); split; try assumption; split; try reflexivity; discriminate.
      - destruct (rel_pos s (kth s i) T (conj Lk1 Lk2) (Hp _ (conj Lk1 Lk2)) EI) as (B1 & B2 & B3). unfold addr, own, base in *. destruct C as [C1 C2 C3 C4 C5]. unfold base in *.
        destruct (Z.of_nat (kth s i) - Z.of_nat i =? 0) eqn:E0; cbn [rel sub_delta].
        + split; [assumption|]. split; [discriminate|]. intros _. lia.
        + unfold u16. change (2 ^ 16) with 65536. assert (Z.of_nat i < Z.of_nat (cnt s)) by (pose proof (i_jcr _ _ _ _ _ _ A); lia).
          split; [apply Z.mod_pos_bound; lia|]. split; [discriminate|]. intros _. rewrite Z.mod_small by lia. lia. }
    constructor; try reflexivity; try assumption; intros i Hi; destruct (Er i Hi) as (E1 & E2 & E3); auto.
    intros EI. destruct (E3 EI) as (F1 & F2 & F3). tauto.
Qed.

Section Shrunk.
  Variables (s s1 : st).
  Hypothesis T : TInv s.
  Hypothesis S : shrunk s s1.
  Let A := v_acc _ _ (t_inv _ T).

  Definition rho (r : ref) : ref := match r with RL i => RL (kth s i) | RP j => RP j end.
  Definition alive1 (r : ref) : Prop := match r with RL i => (i < cnt s1)%nat | RP j => (j < nslots s1)%nat end.
  Lemma sh_nohole i : (i < cnt s1)%nat -> is_hole (idx s1 i) = false.
  Proof.
    intros H. pose proof (kth_live s i ltac:(pose proof (sh_cnt _ _ S); lia)) as [_ E]. unfold is_hole in *. rewrite (sh_gid _ _ S) by assumption. exact E.
  Qed.
  Lemma sh_live r : live s1 r <-> alive1 r.
  Proof. destruct r as [i|j]; cbn [live alive1]; [|tauto]. split; [tauto|]. intros H. split; [assumption|apply sh_nohole; assumption]. Qed.
  Lemma sh_rho r : alive1 r -> live s (rho r).
  Proof. destruct r as [i|j]; cbn [alive1 rho]; intros H; [apply kth_live; rewrite <- (sh_cnt _ _ S); assumption|cbn; rewrite <- (sh_nslots _ _ S); assumption]. Qed.
  Lemma sh_genus r : alive1 r -> rgenus s1 r = rgenus s (rho r) /\ rdesc s1 r = rdesc s (rho r) /\ stretchy_ref s1 r = stretchy_ref s (rho r).
  Proof.
    destruct r as [i|j]; cbn [alive1 rho rgenus rdesc]; intros H; unfold stretchy_ref; cbn [rgenus]; unfold egenus; rewrite ?(sh_gid _ _ S), ?(sh_stype _ _ S) by assumption; auto.
  Qed.
  Lemma sh_addr r : alive1 r -> (match r with RL _ => is_inplaced_genus (rgenus s1 r) | RP _ => false end) = false ->
    (rrel s1 r = 0 <-> rrel s (rho r) = 0) /\ (rrel s1 r <> 0 -> raddr s1 r = raddr s (rho r)).
  Proof.
    destruct r as [i|j]; cbn [alive1 rho rgenus rrel]; intros H E.
    - exact (sh_ref _ _ S i H E).
    - rewrite (sh_pre _ _ S). split; [tauto|]. intros _. unfold raddr. cbn [rown rrel]. rewrite (sh_pre _ _ S), (sh_pivot _ _ S), (sh_soff _ _ S). reflexivity.
  Qed.
  Lemma sh_plen r : alive1 r -> plen s1 r = plen s (rho r).
  Proof.
    intros H. destruct (sh_genus r H) as (G & _ & _). pose proof (sh_addr r H) as AD. unfold plen. rewrite G.
    replace (match rho r with RL _ => fixed_genus (rgenus s (rho r)) | RP _ => false end) with (match r with RL _ => fixed_genus (rgenus s (rho r)) | RP _ => false end) by (destruct r; reflexivity).
    destruct (match r with RL _ => fixed_genus (rgenus s (rho r)) | RP _ => false end) eqn:F; [reflexivity|].
    assert (I : match r with RL _ => is_inplaced_genus (rgenus s1 r) | RP _ => false end = false).
    { destruct r; [|reflexivity]. rewrite G. destruct (is_inplaced_genus (rgenus s (rho (RL k)))) eqn:X; [|reflexivity]. apply inplaced_units in X. destruct X. congruence. }
    destruct (AD I) as [A1 A2]. destruct (Z.eq_dec (rrel s1 r) 0) as [Z0|Z0].
    - replace (rrel s1 r =? 0) with true by lia. replace (rrel s (rho r) =? 0) with true by lia. reflexivity.
    - replace (rrel s1 r =? 0) with false by lia. replace (rrel s (rho r) =? 0) with false by lia. rewrite A2, (sh_dat _ _ S) by assumption. reflexivity.
  Qed.
  Lemma sh_value r : alive1 r -> value s1 r = value s (rho r).
  Proof.
    intros H. destruct (sh_genus r H) as (G & _ & _). pose proof (sh_addr r H) as AD. unfold value. rewrite sh_plen by assumption.
    replace (match rho r with RL _ => is_inplaced_genus (rgenus s (rho r)) | RP _ => false end) with (match r with RL _ => is_inplaced_genus (rgenus s1 r) | RP _ => false end)
      by (destruct r; cbn [rho] in *; [rewrite G|]; reflexivity).
    destruct (match r with RL _ => is_inplaced_genus (rgenus s1 r) | RP _ => false end) eqn:I.
    - destruct r as [i|j]; [|discriminate]. cbn [rrel rho]. rewrite (sh_inp _ _ S) by assumption. reflexivity.
    - destruct (AD eq_refl) as [A1 A2]. destruct (Z.eq_dec (rrel s1 r) 0) as [Z0|Z0].
      + assert (P : plen s (rho r) = 0); [|rewrite P; reflexivity].
        unfold plen. destruct (match rho r with RL _ => fixed_genus (rgenus s (rho r)) | RP _ => false end) eqn:F.
        * exfalso. destruct r as [i|j]; cbn [rho] in F; [|discriminate]. cbn [rgenus rho] in *.
          assert (FI : is_inplaced_genus (egenus (idx s (kth s i))) = false) by (rewrite <- G; exact I).
          destruct (rel_pos s (kth s i) T (sh_rho (RL i) H)) as (B1 & _ & B3); [|exact FI|].
          { intros X. unfold stretchy_ref in X. cbn [rgenus] in X. rewrite F in X. discriminate. }
          unfold addr, own, base in B1. destruct (i_cfg _ _ _ _ _ _ A) as [C1 C2 C3 C4 C5]. cbn [rrel rho] in A1. apply A1 in Z0. lia.
        * replace (rrel s (rho r) =? 0) with true by lia. reflexivity.
      + rewrite A2 by assumption. unfold read_units. rewrite (sh_dat _ _ S). reflexivity.
  Qed.
  Lemma sh_sum f : sumn (cnt s1) (fun i => f (kth s i)) = lsum f (kept s).
  Proof. rewrite (sh_cnt _ _ S). rewrite (lsum_nth f (kept s) 0%nat). reflexivity. Qed.
  Lemma kept_sum f : lsum f (kept s) = sumn (cnt s) (fun k => if is_hole (idx s k) then 0 else f k).
  Proof.
    rewrite <- lsum_seq. unfold kept, kept_from. rewrite <- (lsum_filter (fun k => if is_hole (idx s k) then 0 else f k) (fun k => negb (is_hole (idx s k)))).
    - apply lsum_ext. intros k Hk. apply filter_In in Hk as [_ Hk]. destruct (is_hole (idx s k)); [discriminate|reflexivity].
    - intros k _ E. destruct (is_hole (idx s k)); [reflexivity|discriminate].
  Qed.
  (** the payload that remains *)
  Lemma sh_total : sumn (cnt s1) (fun i => plen s1 (RL i)) + sumn (nslots s1) (fun j => plen s1 (RP j)) = tail s - base s - jv s.
  Proof.
    pose proof (i_tot _ _ _ _ _ _ A) as E. pose proof (i_jv _ _ _ _ _ _ A) as V. unfold total in E.
    rewrite (sumn_ext (cnt s1) _ (fun i => plen s (RL (kth s i)))) by (intros i Hi; apply (sh_plen (RL i)); assumption).
    rewrite (sh_sum (fun k => plen s (RL k))), kept_sum.
    rewrite (sumn_ext (nslots s1) _ (fun j => plen s (RP j))) by (intros j Hj; apply (sh_plen (RP j)); assumption). rewrite (sh_nslots _ _ S).
    rewrite (sumn_ext (cnt s) (len s (plen s)) (fun k => (if is_hole (idx s k) then 0 else plen s (RL k)) + hvol s k)) in E
      by (intros k _; unfold len, hvol; destruct (is_hole (idx s k)); lia).
    rewrite sumn_split in E. lia.
  Qed.
  Lemma sh_bounds r : alive1 r -> 0 < plen s1 r -> base s <= raddr s1 r /\ raddr s1 r + plen s1 r <= tail s /\ raddr s1 r = raddr s (rho r) /\ rrel s1 r <> 0.
  Proof.
    intros H P. rewrite sh_plen in * by assumption.
    assert (I : match r with RL _ => is_inplaced_genus (rgenus s1 r) | RP _ => false end = false).
    { destruct r; [|reflexivity]. destruct (sh_genus (RL k) H) as (G & _). rewrite G. destruct (is_inplaced_genus (rgenus s (rho (RL k)))) eqn:X; [|reflexivity].
      apply inplaced_units in X. destruct X as [X1 X2]. unfold plen in P. cbn [rho] in *. rewrite X2 in P. lia. }
    destruct (sh_addr r H I) as [A1 A2].
    pose proof (live_bounds s (plen s) A (rho r) (sh_rho r H) P) as B.
    assert (N : rrel s (rho r) <> 0).
    { intros X. unfold raddr in B. rewrite X in B. pose proof (sh_rho r H) as LV. destruct (i_cfg _ _ _ _ _ _ A) as [C1 C2 C3 C4 C5]. unfold base in *.
      destruct r as [i|j]; cbn [rho rown] in *; [unfold own in B; lia|]. specialize (C5 j LV). lia. }
    rewrite A2 by tauto. tauto.
  Qed.
  Lemma rho_inj r r' : alive1 r -> alive1 r' -> rho r = rho r' -> r = r'.
  Proof.
    destruct r as [i|j], r' as [i'|j']; cbn [alive1 rho]; intros H H' E; try congruence. f_equal. rewrite (sh_cnt _ _ S) in *.
    apply (proj1 (NoDup_nth (kept s) 0%nat) (kept_nodup s) i i' H H'). injection E as E. exact E.
  Qed.
  Lemma sh_disjoint r r' : alive1 r -> alive1 r' -> r <> r' -> 0 < plen s1 r -> 0 < plen s1 r' ->
    raddr s1 r + plen s1 r <= raddr s1 r' \/ raddr s1 r' + plen s1 r' <= raddr s1 r.
  Proof.
    intros H H' N P P'. destruct (sh_bounds r H P) as (_ & _ & E & _). destruct (sh_bounds r' H' P') as (_ & _ & E' & _). rewrite E, E' in *.
    rewrite !sh_plen in * by assumption.
    destruct (Z.le_gt_cases (raddr s (rho r) + plen s (rho r)) (raddr s (rho r'))) as [|G1]; [left; assumption|].
    destruct (Z.le_gt_cases (raddr s (rho r') + plen s (rho r')) (raddr s (rho r))) as [|G2]; [right; assumption|].
    exfalso. apply (live_disjoint s (plen s) A (rho r) (rho r') (Z.max (raddr s (rho r)) (raddr s (rho r')))); [apply sh_rho; assumption|apply sh_rho; assumption| |lia|lia].
    intros X. apply N, rho_inj; assumption.
  Qed.
End Shrunk.

(** ** A state without holes *)
Lemma TInv_solid s : cfg_ok s -> (forall k, (k < cnt s)%nat -> is_hole (idx s k) = false) -> jc s = 0 -> jv s = 0 ->
  (forall k, (k < cnt s)%nat -> 0 <= rel (idx s k) < 65536 /\ 0 <= gid (idx s k) < 65536) -> (forall j, (j < nslots s)%nat -> 0 <= pre s j < 65536) ->
  (forall x, sumn (cnt s) (fun k => ind (addr s k) (plen s (RL k)) x) + sumn (nslots s) (fun j => ind (raddr s (RP j)) (plen s (RP j)) x) = ind (base s) (tail s - base s) x) ->
  sumn (cnt s) (fun k => plen s (RL k)) + sumn (nslots s) (fun j => plen s (RP j)) = tail s - base s ->
  (forall r, live s r -> stretchy_ref s r = true -> rrel s r <> 0 -> 0 < plen s r) -> (forall j, (j < nslots s)%nat -> 0 <= stype s j < 4) -> TInv s.
Proof.
  intros C NH J V ER PR CV TT TP TS.
  assert (EL : forall k, (k < cnt s)%nat -> len s (plen s) k = plen s (RL k)) by (intros k Hk; unfold len; rewrite NH by assumption; reflexivity).
  constructor; [|assumption|assumption]. constructor.
  - constructor; try assumption.
    + intros x. unfold cov, zero_d. rewrite (sumn_ext _ _ (fun k => ind (addr s k) (plen s (RL k)) x)) by (intros k Hk; rewrite EL by assumption; reflexivity). rewrite CV. lia.
    + intros r. apply plen_nonneg.
    + unfold total. rewrite (sumn_ext _ _ (fun k => plen s (RL k))) by (intros k Hk; apply EL; assumption). lia.
    + rewrite (sumn_zero _ (hcount s)) by (intros k Hk; unfold hcount; rewrite NH by assumption; reflexivity). lia.
    + rewrite (sumn_zero _ (hvol s)) by (intros k Hk; unfold hvol; rewrite NH by assumption; reflexivity). lia.
    + intros k Hk. destruct (ER k Hk). split; [assumption|]. split; [assumption|]. rewrite NH by assumption. discriminate.
    + lia.
    + lia.
  - intros i j (Hi & Hh & _). rewrite NH in Hh by assumption. discriminate.
  - intros i (Hi & Hh & _). rewrite NH in Hh by assumption. discriminate.
Qed.

Lemma telescope x (g : chunk -> Z) cs : forall dst, (forall c, In c cs -> 0 <= c_len c) ->
  (forall front c back, cs = front ++ c :: back -> g c = dst + lsum c_len front) ->
  lsum (fun c => ind (g c) (c_len c) x) cs = ind dst (lsum c_len cs) x /\ 0 <= lsum c_len cs.
Proof.
  induction cs as [|c cs IH]; intros dst HN HG; cbn [lsum].
  - rewrite ind_0 by lia. lia.
  - destruct (IH (dst + c_len c)) as [I1 I2].
    + intros c' Hc'. apply HN. right. assumption.
    + intros front c' back E. rewrite (HG (c :: front) c' back) by (cbn [app]; rewrite E; reflexivity). cbn [lsum]. lia.
    + pose proof (HN c (or_introl eq_refl)). rewrite ind_split by lia. rewrite I1. rewrite (HG [] c cs eq_refl). cbn [lsum]. rewrite Z.add_0_r. lia.
Qed.

(** the condition under which step two is right: no variable-length preplaced field without payload *)
Definition paid_slots (s : st) : Prop := forall j, (j < nslots s)%nat -> pre s j <> 0.

Section Packed.
  Variables (s s1 : st) (srt : list chunk -> list chunk).
  Hypothesis T : TInv s.
  Hypothesis S : shrunk s s1.
  Hypothesis SRT : sorter c_off srt.
  Let A := v_acc _ _ (t_inv _ T).

  Record compacted (s2 : st) : Prop := {
    k_inv : TInv s2; k_jc : jc s2 = 0; k_jv : jv s2 = 0; k_cnt : cnt s2 = length (kept s); k_tail : tail s2 = tail s - jv s;
    k_pivot : pivot s2 = pivot s; k_end : end_ s2 = end_ s; k_pp : pp s2 = pp s;
    k_nslots : nslots s2 = nslots s; k_soff : soff s2 = soff s; k_stype : stype s2 = stype s;
    k_loose : forall i, (i < length (kept s))%nat -> field s2 (RL i) = field s (RL (kth s i));
    k_slot : forall j, field s2 (RP j) = field s (RP j)
  }.
  Lemma field_via r : alive1 s1 r -> field s1 r = field s (rho s r).
  Proof.
    intros H. destruct (sh_genus s s1 S r H) as (_ & D & _).
    rewrite !field_live by ((apply (sh_live s s1 S); assumption) || (apply (sh_rho s s1 S); assumption)). rewrite D, (sh_value s s1 T S) by assumption. reflexivity.
  Qed.
  Lemma sh_pos r : alive1 s1 r -> stretchy_ref s1 r = true -> rrel s1 r <> 0 -> 0 < plen s1 r.
  Proof.
    intros H ST R. destruct (sh_genus s s1 S r H) as (G & _ & G2). rewrite (sh_plen s s1 S) by assumption. apply (t_pos _ T); [apply (sh_rho s s1 S); assumption|congruence|].
    assert (I : match r with RL _ => is_inplaced_genus (rgenus s1 r) | RP _ => false end = false).
    { destruct r as [i|j]; [|reflexivity]. unfold stretchy_ref in ST. destruct (is_inplaced_genus (rgenus s1 (RL i))) eqn:X; [|reflexivity]. apply inplaced_units in X. destruct X as [_ X]. rewrite X in ST. discriminate. }
    destruct (sh_addr s s1 S r H I) as [A1 _]. tauto.
  Qed.
  Lemma sh_ents i : (i < cnt s1)%nat -> 0 <= rel (idx s1 i) < 65536 /\ 0 <= gid (idx s1 i) < 65536.
  Proof.
    intros H. split; [apply (sh_rng _ _ S); assumption|]. rewrite (sh_gid _ _ S) by assumption.
    pose proof (kth_live s i ltac:(pose proof (sh_cnt _ _ S); lia)) as [L _]. apply (i_ent _ _ _ _ _ _ A _ L).
  Qed.
  Lemma sh_pres j : (j < nslots s1)%nat -> 0 <= pre s1 j < 65536.
  Proof. rewrite (sh_nslots _ _ S), (sh_pre _ _ S). apply (i_pre _ _ _ _ _ _ A). Qed.
  Lemma sh_types j : (j < nslots s1)%nat -> 0 <= stype s1 j < 4.
  Proof. rewrite (sh_nslots _ _ S), (sh_stype _ _ S). apply (t_slot _ T). Qed.
  Lemma sh_cfg : cfg_ok s1.
  Proof.
    destruct (i_cfg _ _ _ _ _ _ A) as [C1 C2 C3 C4 C5]. pose proof (kept_length s _ A) as K. pose proof (i_jcr _ _ _ _ _ _ A). unfold base in *.
    constructor; unfold base; rewrite ?(sh_cnt _ _ S), ?(sh_pivot _ _ S), ?(sh_pp _ _ S), ?(sh_tail _ _ S), ?(sh_end _ _ S), ?(sh_nslots _ _ S), ?(sh_soff _ _ S); try assumption; lia.
  Qed.
  Lemma sh_base : base s1 = base s.
  Proof. unfold base. rewrite (sh_pivot _ _ S), (sh_pp _ _ S). reflexivity. Qed.
  Lemma sh_ind r x : alive1 s1 r -> ind (raddr s1 r) (plen s1 r) x = ind (raddr s (rho s r)) (plen s (rho s r)) x.
  Proof.
    intros H. pose proof (plen_nonneg s1 r). destruct (Z.eq_dec (plen s1 r) 0) as [E|E].
    - rewrite !ind_0; [reflexivity|rewrite <- (sh_plen s s1 S) by assumption; lia|lia].
    - destruct (sh_bounds s s1 T S r H ltac:(lia)) as (_ & _ & R & _). rewrite R, (sh_plen s s1 S) by assumption. reflexivity.
  Qed.

  (** no volume to reclaim: the state is already packed *)
  Lemma packed_idle : jv s = 0 -> compacted s1.
  Proof.
    intros V. pose proof (sh_total s s1 T S) as TT. pose proof sh_cfg as C. pose proof sh_base as B.
    constructor; try (first [apply (sh_jc _ _ S)|apply (sh_cnt _ _ S)|apply (sh_pivot _ _ S)|apply (sh_end _ _ S)|apply (sh_pp _ _ S)|apply (sh_nslots _ _ S)|apply (sh_soff _ _ S)|apply (sh_stype _ _ S)]).
    - apply TInv_solid; try assumption.
      + intros k Hk. apply (sh_nohole s s1 S). assumption.
      + apply (sh_jc _ _ S).
      + rewrite (sh_jv _ _ S). assumption.
      + exact sh_ents.
      + exact sh_pres.
      + intros x. rewrite B, (sh_tail _ _ S). pose proof (i_cov _ _ _ _ _ _ A x) as CV. unfold zero_d in CV. rewrite Z.add_0_r in CV. rewrite <- CV. unfold cov.
        rewrite (sumn_ext (cnt s1) _ (fun i => ind (addr s (kth s i)) (plen s (RL (kth s i))) x)) by (intros i Hi; apply (sh_ind (RL i) x); assumption).
        rewrite (sh_sum s s1 S (fun k => ind (addr s k) (plen s (RL k)) x)), (kept_sum s).
        rewrite (sumn_ext (nslots s1) _ (fun j => ind (raddr s (RP j)) (plen s (RP j)) x)) by (intros j Hj; apply (sh_ind (RP j) x); assumption).
        rewrite (sh_nslots _ _ S). f_equal. apply sumn_ext. intros k Hk. unfold len. destruct (is_hole (idx s k)) eqn:E; [|reflexivity].
        pose proof (i_jv _ _ _ _ _ _ A) as JV. rewrite V, Z.add_0_r in JV.
        pose proof (sumn_zero_inv _ _ (fun k _ => hvol_nonneg s k) JV k Hk) as Z0. unfold hvol in Z0. rewrite E in Z0. rewrite ind_0 by lia. reflexivity.
      + rewrite TT, B, (sh_tail _ _ S). lia.
      + intros r H. apply sh_pos. apply (sh_live s s1 S). assumption.
      + exact sh_types.
    - rewrite (sh_jv _ _ S). assumption.
    - rewrite (sh_tail _ _ S). lia.
    - intros i Hi. apply (field_via (RL i)). cbn. rewrite (sh_cnt _ _ S). assumption.
    - intros j. destruct (Nat.lt_ge_cases j (nslots s1)) as [H|H]; [apply (field_via (RP j)); assumption|].
      rewrite !field_dead by (cbn; rewrite ?(sh_nslots _ _ S) in *; lia). reflexivity.
  Qed.

  (** ** The list of chunks *)
  Hypothesis PS : paid_slots s.
  Let cs := srt (chunks s1).
  Lemma chunk_of c : In c cs -> alive1 s1 (c_ref c) /\ 0 < c_len c /\ c_len c = plen s1 (c_ref c) /\ chunk_src s1 c = raddr s1 (c_ref c) /\
    base s <= raddr s1 (c_ref c) /\ raddr s1 (c_ref c) + c_len c <= tail s.
  Proof.
    intros H. unfold cs in H. destruct (SRT (chunks s1)) as [Pm _]. apply (Permutation_in _ (Permutation_sym Pm)) in H.
    destruct sh_cfg as [C1 C2 C3 C4 C5]. rewrite sh_base in *. rewrite (sh_tail _ _ S) in C3. pose proof sh_base as HB. unfold base in HB at 1.
    assert (U : forall a, base s <= a <= tail s -> head s1 + u16 (a - head s1) = a).
    { intros a Ha. unfold u16. change (2 ^ 16) with 65536. unfold head in *. rewrite Z.mod_small; lia. }
    assert (Q : forall r, alive1 s1 r -> 0 < plen s1 r -> plen s1 r < 65536 -> u16 (plen s1 r) = plen s1 r).
    { intros r _ P1 P2. unfold u16. change (2 ^ 16) with 65536. apply Z.mod_small. lia. }
    unfold chunks in H. apply in_app_or in H as [H|H]; apply in_map_iff in H as (i & <- & Hi).
    - apply in_seq in Hi. assert (AL : alive1 s1 (RP i)) by (cbn; lia).
      assert (R : rrel s1 (RP i) <> 0). { cbn [rrel]. rewrite (sh_pre _ _ S). apply PS. rewrite <- (sh_nslots _ _ S). lia. }
      pose proof (sh_pos (RP i) AL eq_refl R) as P. destruct (sh_bounds s s1 T S (RP i) AL P) as (B1 & B2 & _).
      assert (E : brutto (stype s1 i) (word s1 (raddr s1 (RP i))) = plen s1 (RP i)).
      { rewrite word_data by (rewrite ?sh_base; assumption). unfold plen. replace (rrel s1 (RP i) =? 0) with false by lia. reflexivity. }
      unfold slot_chunk, chunk_src. cbn [c_off c_len c_ref]. rewrite E, U by lia. rewrite Q; [|assumption|assumption|rewrite <- E; apply brutto_range].
      auto 10.
    - apply filter_In in Hi as [Hi1 Hi2]. apply in_seq in Hi1. assert (AL : alive1 s1 (RL i)) by (cbn; lia).
      apply andb_prop in Hi2 as [I1 I2]. apply Bool.negb_true_iff in I1. assert (R : rel (idx s1 i) <> 0) by lia.
      assert (P : 0 < plen s1 (RL i)).
      { destruct (stretchy_ref s1 (RL i)) eqn:ST; [apply sh_pos; assumption|]. unfold stretchy_ref in ST. cbn [rgenus] in ST.
        assert (F : fixed_genus (egenus (idx s1 i)) = true) by (destruct (fixed_genus (egenus (idx s1 i))); [reflexivity|discriminate]).
        unfold plen. cbn [rgenus]. rewrite F. apply fixed_units; [assumption| |assumption].
        pose proof (sh_nohole s s1 S i ltac:(lia)) as NH. pose proof (proj2 (sh_ents i ltac:(lia))). unfold egenus, is_hole in *. rewrite descriptor2genus_arith in *. change g_hole with 31 in NH. lia. }
      destruct (sh_bounds s s1 T S (RL i) AL P) as (B1 & B2 & _).
      assert (E : (if fixed_genus (egenus (idx s1 i)) then loose_units (egenus (idx s1 i)) else brutto (egenus (idx s1 i)) (dat s1 (addr s1 i))) = plen s1 (RL i)).
      { unfold plen. cbn [rgenus rrel]. replace (rel (idx s1 i) =? 0) with false by lia. reflexivity. }
      unfold loose_chunk, chunk_src. cbv zeta. cbn [c_off c_len c_ref]. rewrite E.
      change (addr s1 i) with (raddr s1 (RL i)). rewrite U by lia. rewrite Q; [auto 10|assumption|assumption|].
      rewrite <- E. pose proof (loose_units_range (egenus (idx s1 i))). pose proof (brutto_range (egenus (idx s1 i)) (dat s1 (addr s1 i))). destruct (fixed_genus _); lia.
  Qed.
  Lemma cs_nonneg l : (forall c, In c l -> In c cs) -> 0 <= lsum c_len l.
  Proof.
    induction l as [|a l IH]; cbn [lsum]; intros Hl; [lia|]. destruct (chunk_of a (Hl a (or_introl eq_refl))) as (_ & ? & _).
    specialize (IH (fun c Hc => Hl c (or_intror Hc))). lia.
  Qed.
  Lemma chunks_refs : NoDup (map c_ref (chunks s1)).
  Proof.
    unfold chunks. rewrite map_app, !map_map. cbn [c_ref slot_chunk loose_chunk].
    assert (N1 : NoDup (map (fun x => RP x) (seq 0 (nslots s1)))) by (apply FinFun.Injective_map_NoDup; [intros ? ? X; congruence|apply seq_NoDup]).
    set (F := filter _ _). assert (N2 : NoDup (map (fun x => RL x) F)) by (apply FinFun.Injective_map_NoDup; [intros ? ? X; congruence|apply NoDup_filter, seq_NoDup]).
    revert N1 N2. generalize (seq 0 (nslots s1)). intros l N1 N2. induction l as [|x l IH]; cbn [map app]; [exact N2|]. inversion N1; subst. constructor; [|auto].
    rewrite in_app_iff, !in_map_iff. intros [(y & Ey & Iy)|(y & Ey & Iy)]; [|congruence]. injection Ey as ->. apply H1. apply in_map. assumption.
  Qed.
  Lemma cs_refs : NoDup (map c_ref cs).
  Proof. unfold cs. destruct (SRT (chunks s1)) as [Pm _]. eapply Permutation_NoDup; [apply Permutation_map; exact Pm|apply chunks_refs]. Qed.
  Lemma cs_chain : StronglySorted (fun a b => chunk_src s1 a + c_len a <= chunk_src s1 b) cs.
  Proof.
    pose proof chunk_of as CO. pose proof cs_refs as N. destruct (SRT (chunks s1)) as [_ SS]. fold cs in SS. clearbody cs. clear - CO N SS T S.
    induction SS as [|a l SS IH HF]; constructor.
    - apply IH; [intros c Hc; apply CO; right; assumption|inversion N; assumption].
    - rewrite Forall_forall in *. intros b Hb. pose proof (HF b Hb) as LE. inversion N as [|? ? Nin _]; subst.
      destruct (CO a (or_introl eq_refl)) as (A1 & A2 & A3 & A4 & A5 & A6). destruct (CO b (or_intror Hb)) as (B1 & B2 & B3 & B4 & B5 & B6).
      assert (NE : c_ref a <> c_ref b) by (intros X; apply Nin; rewrite X; apply in_map; assumption).
      pose proof (sh_disjoint s s1 T S (c_ref a) (c_ref b) A1 B1 NE ltac:(lia) ltac:(lia)) as D. unfold chunk_src in *. lia.
  Qed.
  (** sums over all references become sums over the chunks *)
  Lemma chunk_sum (f : ref -> Z) : (forall r, alive1 s1 r -> plen s1 r = 0 -> f r = 0) ->
    sumn (cnt s1) (fun i => f (RL i)) + sumn (nslots s1) (fun j => f (RP j)) = lsum (fun c => f (c_ref c)) cs.
  Proof.
    intros H. unfold cs. destruct (SRT (chunks s1)) as [Pm _]. rewrite <- (lsum_perm _ _ _ Pm). unfold chunks. rewrite lsum_app, !lsum_map. cbn [c_ref slot_chunk loose_chunk].
    rewrite lsum_filter, !lsum_seq; [lia|]. intros i Hi E. apply in_seq in Hi. assert (AL : alive1 s1 (RL i)) by (cbn; lia). apply H; [exact AL|].
    apply Bool.andb_false_iff in E as [E|E].
    - apply Bool.negb_false_iff in E. apply inplaced_units in E as [E1 E2]. unfold plen. cbn [rgenus]. rewrite E2. assumption.
    - apply Bool.negb_false_iff in E. pose proof (plen_nonneg s1 (RL i)). destruct (Z.eq_dec (plen s1 (RL i)) 0) as [|X]; [assumption|].
      destruct (sh_bounds s s1 T S (RL i) AL ltac:(lia)) as (_ & _ & _ & Y). cbn [rrel] in Y. lia.
  Qed.

  Let m := snd (move_chunks s1 (base s1) cs).
  Let s2 := with_jv (with_tail m (tail m - jv m)) 0.
  Lemma moved_chunks : fst (move_chunks s1 (base s1) cs) = base s + lsum c_len cs /\ frame s1 m /\
    (forall r, ~ In r (map c_ref cs) -> rrel m r = rrel s1 r) /\
    forall front c back, cs = front ++ c :: back ->
      raddr m (c_ref c) = base s + lsum c_len front /\
      forall i, 0 <= i < c_len c -> dat m (base s + lsum c_len front + i) = dat s1 (raddr s1 (c_ref c) + i).
  Proof.
    pose proof sh_cfg as [C1 C2 C3 C4 C5]. pose proof sh_base as B. unfold base in C3.
    destruct (move_chunks_spec cs s1 (base s1) C2 ltac:(lia)) as (M1 & M2 & M3 & M4 & M5).
    - intros c Hc. destruct (chunk_of c Hc) as (A1 & A2 & A3 & A4 & A5 & A6). split; [|lia]. unfold place. rewrite A4. rewrite (sh_tail _ _ S) in *.
      repeat split; try lia; destruct (c_ref c) as [i|j]; cbn [rown alive1] in *; unfold own, base in *; try lia; specialize (C5 j A1); lia.
    - exact cs_chain.
    - exact cs_refs.
    - fold m in M2, M3, M4, M5. rewrite B in *. split; [exact M1|]. split; [exact M2|]. split; [exact M4|].
      intros front c back E. destruct (M5 front c back E) as [X1 X2]. split; [exact X1|]. intros i Hi. rewrite X2 by assumption.
      destruct (chunk_of c) as (_ & _ & _ & A4 & _); [rewrite E; apply in_or_app; right; left; reflexivity|]. rewrite A4. reflexivity.
  Qed.
  Lemma in_split_cs r : alive1 s1 r -> 0 < plen s1 r -> exists front c back, cs = front ++ c :: back /\ c_ref c = r.
  Proof.
    intros H P. destruct (SRT (chunks s1)) as [Pm _]. fold cs in Pm.
    assert (I : In r (map c_ref (chunks s1))).
    { unfold chunks. rewrite map_app, !map_map. cbn [c_ref slot_chunk loose_chunk]. apply in_or_app. destruct r as [i|j].
      - right. apply in_map_iff. exists i. split; [reflexivity|]. apply filter_In. split; [apply in_seq; cbn in H; lia|].
        destruct (sh_bounds s s1 T S (RL i) H P) as (_ & _ & _ & R). cbn [rrel] in R. replace (rel (idx s1 i) =? 0) with false by lia.
        destruct (is_inplaced_genus (egenus (idx s1 i))) eqn:X; [|reflexivity]. apply inplaced_units in X as [X1 X2]. unfold plen in P. cbn [rgenus] in P. rewrite X2 in P. lia.
      - left. apply in_map_iff. exists j. split; [reflexivity|]. apply in_seq. cbn in H. lia. }
    apply (Permutation_in _ (Permutation_map c_ref Pm)) in I. apply in_map_iff in I as (c & E & Ic). apply in_split in Ic as (f & b & Ef). eauto 10.
  Qed.
  Lemma s2_rrel r : rrel s2 r = rrel m r. Proof. destruct r; reflexivity. Qed.
  Lemma s2_genus r : rgenus s2 r = rgenus s1 r /\ rdesc s2 r = rdesc s1 r /\ stretchy_ref s2 r = stretchy_ref s1 r.
  Proof.
    destruct moved_chunks as (_ & F & _). unfold stretchy_ref. destruct r as [i|j]; cbn [rgenus rdesc]; unfold egenus; cbn [s2 with_jv with_tail idx stype]; rewrite ?(fr_gid _ _ F), ?(fr_stype _ _ F); auto.
  Qed.
  (** a field that owns units *)
  Lemma s2_owner r : alive1 s1 r -> 0 < plen s1 r ->
    base s <= raddr s2 r /\ rrel s2 r <> 0 /\ plen s2 r = plen s1 r /\ value s2 r = value s1 r.
  Proof.
    intros H P. destruct (in_split_cs r H P) as (front & c & back & E & <-).
    assert (Ic : In c cs) by (rewrite E; apply in_or_app; right; left; reflexivity).
    destruct (chunk_of c Ic) as (A1 & A2 & A3 & A4 & A5 & A6). destruct moved_chunks as (_ & F & _ & M). destruct (M front c back E) as [R D].
    destruct (sh_bounds s s1 T S _ H P) as (_ & _ & _ & N1). destruct (s2_genus (c_ref c)) as (G & _ & _).
    assert (LF : 0 <= lsum c_len front).
    { assert (X : forall l, (forall c, In c l -> In c cs) -> 0 <= lsum c_len l).
      { induction l as [|a l IH]; cbn [lsum]; intros Hl; [lia|]. destruct (chunk_of a (Hl a (or_introl eq_refl))) as (_ & ? & _).
        specialize (IH (fun c Hc => Hl c (or_intror Hc))). lia. }
      apply X. intros c' Hc'. rewrite E. apply in_or_app. left. assumption. }
    assert (R2 : raddr s2 (c_ref c) = base s + lsum c_len front).
    { rewrite <- R. unfold raddr. rewrite s2_rrel. destruct (c_ref c); reflexivity. }
    assert (NZ : rrel s2 (c_ref c) <> 0).
    { intros X. pose proof sh_cfg as [C1 C2 C3 C4 C5]. pose proof sh_base as B. unfold raddr in R2. rewrite X in R2. unfold base in *.
      destruct (c_ref c) as [i|j]; cbn [rown alive1] in *; unfold own in *; cbn [s2 with_jv with_tail pivot soff] in R2; rewrite (fr_pivot _ _ F) in R2; [|rewrite (fr_soff _ _ F) in R2]; try lia. specialize (C5 j A1). lia. }
    assert (PL : plen s2 (c_ref c) = plen s1 (c_ref c)).
    { unfold plen. rewrite G. replace (rrel s2 (c_ref c) =? 0) with false by lia. replace (rrel s1 (c_ref c) =? 0) with false by lia. rewrite R2.
      replace (dat s2 (base s + lsum c_len front)) with (dat s1 (raddr s1 (c_ref c))); [reflexivity|].
      specialize (D 0 ltac:(lia)). rewrite !Z.add_0_r in D. exact (eq_sym D). }
    split; [lia|]. split; [assumption|]. split; [assumption|].
    unfold value. rewrite G, PL.
    destruct (match c_ref c with RL _ => is_inplaced_genus (rgenus s1 (c_ref c)) | RP _ => false end) eqn:I.
    - exfalso. destruct (c_ref c) as [i|j]; [|discriminate]. apply inplaced_units in I as [I1 I2]. unfold plen in P. rewrite I2 in P. lia.
    - unfold read_units. apply map_ext_in. intros i Hi. apply in_seq in Hi. rewrite R2.
      change (dat s2) with (dat m). rewrite D by lia. reflexivity.
  Qed.
  Lemma s2_other r : alive1 s1 r -> plen s1 r = 0 -> rrel s2 r = rrel s1 r /\ plen s2 r = 0 /\ value s2 r = value s1 r.
  Proof.
    intros H P. destruct moved_chunks as (_ & F & M & _). destruct (s2_genus r) as (G & _ & G3).
    assert (R : rrel s2 r = rrel s1 r).
    { rewrite s2_rrel. apply M. rewrite in_map_iff. intros (c & E & Ic). destruct (chunk_of c Ic) as (_ & X & Y & _). rewrite E in Y. lia. }
    split; [assumption|].
    assert (P2 : plen s2 r = 0).
    { unfold plen in *. rewrite G, R. destruct (match r with RL _ => fixed_genus (rgenus s1 r) | RP _ => false end) eqn:FX; [assumption|].
      destruct (rrel s1 r =? 0) eqn:Z0; [reflexivity|]. exfalso.
      assert (ST : stretchy_ref s1 r = true) by (unfold stretchy_ref; destruct r; [rewrite FX|]; reflexivity).
      pose proof (sh_pos r H ST ltac:(lia)) as X. unfold plen in X. rewrite FX, Z0 in X. lia. }
    split; [assumption|]. unfold value. rewrite G, R, P, P2.
    destruct (match r with RL _ => is_inplaced_genus (rgenus s1 r) | RP _ => false end); reflexivity.
  Qed.
  Lemma s2_plen r : alive1 s1 r -> plen s2 r = plen s1 r /\ value s2 r = value s1 r.
  Proof.
    intros H. pose proof (plen_nonneg s1 r). destruct (Z.eq_dec (plen s1 r) 0) as [E|E].
    - destruct (s2_other r H E) as (_ & X & Y). split; [congruence|assumption].
    - destruct (s2_owner r H ltac:(lia)) as (_ & _ & X & Y). auto.
  Qed.
  Lemma s2_alive r : live s2 r <-> alive1 s1 r.
  Proof.
    destruct moved_chunks as (_ & F & _). destruct r as [i|j]; cbn [live alive1]; cbn [s2 with_jv with_tail cnt idx nslots].
    - rewrite (fr_cnt _ _ F). unfold is_hole. rewrite (fr_gid _ _ F). split; [tauto|]. intros H. split; [assumption|]. apply (sh_nohole s s1 S). assumption.
    - rewrite (fr_nslots _ _ F). tauto.
  Qed.
  Lemma packed_moved : compacted s2.
  Proof.
    pose proof moved_chunks as (M1 & F & M4 & M5). pose proof (sh_total s s1 T S) as TT. pose proof sh_cfg as C. pose proof sh_base as B.
    assert (TL : lsum c_len cs = tail s - base s - jv s).
    { rewrite <- TT. rewrite (chunk_sum (plen s1)) by auto. apply lsum_ext. intros c Hc. apply (chunk_of c Hc). }
    assert (F2 : cnt s2 = cnt s1 /\ nslots s2 = nslots s1 /\ base s2 = base s /\ tail s2 = tail s - jv s).
    { unfold s2, base. cbn [with_jv with_tail cnt nslots pivot pp tail]. rewrite (fr_cnt _ _ F), (fr_nslots _ _ F), (fr_pivot _ _ F), (fr_pp _ _ F), (fr_tail _ _ F), (fr_jv _ _ F), (sh_tail _ _ S), (sh_jv _ _ S). unfold base in B. auto. }
    destruct F2 as (F2 & F3 & F4 & F5). pose proof (i_jvr _ _ _ _ _ _ A) as JR. pose proof (jv_bound s (plen s) A) as JB.
    assert (FV : forall r, alive1 s1 r -> field s2 r = field s (rho s r)).
    { intros r H. rewrite <- (field_via r H). rewrite !field_live by ((apply (sh_live s s1 S); assumption) || (apply s2_alive; assumption)).
      destruct (s2_genus r) as (_ & D & _). destruct (s2_plen r H) as [_ V]. rewrite D, V. reflexivity. }
    constructor; try assumption.
    - apply TInv_solid.
      + destruct C as [C1 C2 C3 C4 C5]. rewrite (sh_tail _ _ S) in C3. rewrite B in C3. constructor.
        * rewrite F2. unfold s2. cbn [with_jv with_tail pivot]. rewrite (fr_pivot _ _ F). assumption.
        * unfold s2. cbn [with_jv with_tail pp]. rewrite (fr_pp _ _ F). assumption.
        * rewrite F4, F5. unfold s2. cbn [with_jv with_tail end_]. rewrite (fr_end _ _ F). lia.
        * unfold s2. cbn [with_jv with_tail end_]. rewrite (fr_end _ _ F). assumption.
        * rewrite F3. unfold s2. cbn [with_jv with_tail pp soff]. rewrite (fr_pp _ _ F), (fr_soff _ _ F). assumption.
      + intros k Hk. rewrite F2 in Hk. destruct (proj2 (s2_alive (RL k)) Hk) as [_ X]. assumption.
      + unfold s2. cbn [with_jv with_tail jc]. rewrite (fr_jc _ _ F). apply (sh_jc _ _ S).
      + reflexivity.
      + intros k Hk. rewrite F2 in Hk. destruct (sh_ents k Hk) as [E1 E2]. split.
        * assert (H : alive1 s1 (RL k)) by exact Hk. pose proof (plen_nonneg s1 (RL k)). destruct (Z.eq_dec (plen s1 (RL k)) 0) as [E|E].
          { destruct (s2_other (RL k) H E) as (X & _). cbn [rrel] in X. rewrite X. assumption. }
          { destruct (s2_owner (RL k) H ltac:(lia)) as (X & Y & _). destruct (in_split_cs (RL k) H ltac:(lia)) as (front & c & back & Ec & Er).
            destruct (M5 front c back Ec) as [R _]. rewrite Er in R.
            assert (LB : base s + lsum c_len front <= tail s).
            { assert (lsum c_len cs = lsum c_len front + (c_len c + lsum c_len back)) by (rewrite Ec, lsum_app; reflexivity).
              assert (0 <= lsum c_len (c :: back)) by (apply cs_nonneg; intros c' Hc'; rewrite Ec; apply in_or_app; right; assumption). cbn [lsum] in *. lia. }
            assert (R2 : raddr s2 (RL k) = raddr m (RL k)) by reflexivity. rewrite <- R2 in R.
            destruct C as [C1 C2 C3 C4 C5]. rewrite (sh_tail _ _ S) in *. rewrite B in *.
            unfold raddr in X, R. cbn [rown rrel] in X, R. unfold own in X, R.
            replace (pivot s2) with (pivot s1) in * by (unfold s2; cbn [with_jv with_tail pivot]; rewrite (fr_pivot _ _ F); reflexivity).
            unfold base in *. lia. }
        * unfold s2. cbn [with_jv with_tail idx]. rewrite (fr_gid _ _ F). assumption.
      + intros j Hj. rewrite F3 in Hj. assert (H : alive1 s1 (RP j)) by exact Hj. pose proof (plen_nonneg s1 (RP j)). destruct (Z.eq_dec (plen s1 (RP j)) 0) as [E|E].
        { destruct (s2_other (RP j) H E) as (X & _). cbn [rrel] in X. rewrite X. apply sh_pres. assumption. }
        { destruct (s2_owner (RP j) H ltac:(lia)) as (X & Y & _). destruct (in_split_cs (RP j) H ltac:(lia)) as (front & c & back & Ec & Er).
          destruct (M5 front c back Ec) as [R _]. rewrite Er in R.
          assert (LB : base s + lsum c_len front <= tail s).
          { assert (lsum c_len cs = lsum c_len front + (c_len c + lsum c_len back)) by (rewrite Ec, lsum_app; reflexivity).
            assert (0 <= lsum c_len (c :: back)) by (apply cs_nonneg; intros c' Hc'; rewrite Ec; apply in_or_app; right; assumption). cbn [lsum] in *. lia. }
          assert (R2 : raddr s2 (RP j) = raddr m (RP j)) by reflexivity. rewrite <- R2 in R.
          destruct C as [C1 C2 C3 C4 C5]. rewrite (sh_tail _ _ S) in *. rewrite B in *. specialize (C5 j Hj).
          unfold raddr in X, R. cbn [rown rrel] in X, R.
          replace (pivot s2) with (pivot s1) in * by (unfold s2; cbn [with_jv with_tail pivot]; rewrite (fr_pivot _ _ F); reflexivity).
          replace (soff s2) with (soff s1) in * by (unfold s2; cbn [with_jv with_tail soff]; rewrite (fr_soff _ _ F); reflexivity).
          unfold base in *. lia. }
      + intros x. rewrite F2, F3, F4, F5.
        rewrite (sumn_ext (cnt s1) _ (fun i => (fun r => ind (raddr s2 r) (plen s1 r) x) (RL i))) by (intros i Hi; rewrite (proj1 (s2_plen (RL i) Hi)); reflexivity).
        rewrite (sumn_ext (nslots s1) _ (fun j => (fun r => ind (raddr s2 r) (plen s1 r) x) (RP j))) by (intros j Hj; rewrite (proj1 (s2_plen (RP j) Hj)); reflexivity).
        rewrite (chunk_sum (fun r => ind (raddr s2 r) (plen s1 r) x)) by (intros r _ E; rewrite E; apply ind_0; lia).
        rewrite (lsum_ext _ (fun c => ind (raddr s2 (c_ref c)) (c_len c) x)) by (intros c Hc; rewrite (proj1 (proj2 (proj2 (chunk_of c Hc)))); reflexivity).
        destruct (telescope x (fun c => raddr s2 (c_ref c)) cs (base s)) as [TE _].
        { intros c Hc. destruct (chunk_of c Hc) as (_ & ? & _). lia. }
        { intros front c back E. destruct (M5 front c back E) as [R _]. rewrite <- R. destruct (c_ref c); reflexivity. }
        rewrite TE, TL. f_equal. lia.
      + rewrite F2, F3, F4, F5. rewrite (sumn_ext (cnt s1) _ (fun i => plen s1 (RL i))) by (intros i Hi; apply (s2_plen (RL i) Hi)).
        rewrite (sumn_ext (nslots s1) _ (fun j => plen s1 (RP j))) by (intros j Hj; apply (s2_plen (RP j) Hj)). rewrite TT. lia.
      + intros r H ST R. apply s2_alive in H. rewrite (proj1 (s2_plen r H)). pose proof (plen_nonneg s1 r). destruct (Z.eq_dec (plen s1 r) 0) as [E|E]; [|lia].
        destruct (s2_other r H E) as (X & _). apply sh_pos; [assumption|rewrite <- (proj2 (proj2 (s2_genus r))); assumption|congruence].
      + intros j Hj. rewrite F3 in Hj. unfold s2. cbn [with_jv with_tail stype]. rewrite (fr_stype _ _ F). apply sh_types. assumption.
    - unfold s2. cbn [with_jv with_tail jc]. rewrite (fr_jc _ _ F). apply (sh_jc _ _ S).
    - reflexivity.
    - rewrite F2. apply (sh_cnt _ _ S).
    - unfold s2. cbn [with_jv with_tail pivot]. rewrite (fr_pivot _ _ F). apply (sh_pivot _ _ S).
    - unfold s2. cbn [with_jv with_tail end_]. rewrite (fr_end _ _ F). apply (sh_end _ _ S).
    - unfold s2. cbn [with_jv with_tail pp]. rewrite (fr_pp _ _ F). apply (sh_pp _ _ S).
    - rewrite F3. apply (sh_nslots _ _ S).
    - unfold s2. cbn [with_jv with_tail soff]. rewrite (fr_soff _ _ F). apply (sh_soff _ _ S).
    - unfold s2. cbn [with_jv with_tail stype]. rewrite (fr_stype _ _ F). apply (sh_stype _ _ S).
    - intros i Hi. apply (FV (RL i)). cbn. rewrite (sh_cnt _ _ S). assumption.
    - intros j. destruct (Nat.lt_ge_cases j (nslots s1)) as [H|H]; [apply (FV (RP j)); assumption|].
      rewrite !field_dead by (cbn [live]; rewrite ?F3, ?(sh_nslots _ _ S) in *; lia). reflexivity.
  Qed.
End Packed.

(** ** Compaction *)
Theorem compactify_ok s srt : TInv s -> sorter c_off srt -> (jc s <> 0 -> paid_index s) -> (jv s <> 0 -> paid_slots s) -> compacted s (compactify srt s).
Proof.
  intros T SRT H1 H2. pose proof (drop_shrunk s T H1) as S. unfold compactify, pack_data. rewrite (sh_jv _ _ S).
  destruct (jv s =? 0) eqn:E; [apply packed_idle; [assumption|assumption|lia]|]. apply packed_moved; [assumption|assumption|assumption|apply H2; lia].
Qed.

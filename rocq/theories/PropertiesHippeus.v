(** * Properties of shared buffers, guards, tags and bulk memory helpers *)
From Verif Require Import Base Hippeus HippeusProofs.
From Coq Require Import ZifyBool ZifyNat.
Ltac Zify.zify_post_hook ::= Z.div_mod_to_equations.

(** ** C24. Shared buffers are freed exactly once *)
(** The runs: any interleaving of copying and dropping, in which the number of handles in use never
    reaches 2^31.  In every state of every such run
    - the buffer was repaid at most once;
    - while some handle is held (or is still being dropped without decision), the buffer was not
      repaid, nobody is about to repay it, and the counter is exactly the number of handles in use;
    - once every handle is dropped, the buffer was repaid (exactly once). *)
Theorem C24_freed_exactly_once_partial : forall s, rreach_lim s ->
  0 <= r_freed s <= 1 /\
  ((exists h, In h (r_handles s) /\ (h = Held \/ h = Deciding)) ->
      r_freed s = 0 /\ (forall h, In h (r_handles s) -> h <> Freeing /\ h <> Drowned) /\ r_cnt s = live_count s) /\
  ((forall h, In h (r_handles s) -> h = Dropped) -> r_freed s = 1).
Proof.
  intros s R. pose proof (rinv s R) as [A B C D].
  pose proof (cntb_nonneg is_last (r_handles s)) as N1. pose proof (cntb_nonneg is_live (r_handles s)) as N2.
  split; [lia|]. split.
  - intros (h & I & Hh).
    assert (P : 0 < live_count s) by (eapply in_cntb; [exact I|destruct Hh as [-> | ->]; reflexivity]).
    assert (Z1 : cntb is_last (r_handles s) = 0) by lia. assert (Z2 : r_freed s = 0) by lia.
    split; [exact Z2|]. split; [|apply A; assumption].
    intros x Ix. pose proof (cntb_zero _ _ Z1 x Ix) as E. split; intros ->; discriminate E.
  - intros H.
    assert (E1 : cntb is_last (r_handles s) = 0).
    { destruct (Z.eq_dec (cntb is_last (r_handles s)) 0) as [E|E]; [exact E|exfalso].
      assert (X : forall l, (forall h, In h l -> h = Dropped) -> cntb is_last l = 0).
      { clear. induction l as [|h l IH]; intros H; [reflexivity|]. rewrite cntb_cons, (H h (or_introl eq_refl)).
        cbn [is_last Z.b2z]. rewrite IH; [reflexivity|]. intros x I. apply H. right. exact I. }
      rewrite X in E by exact H. congruence. }
    assert (E2 : live_count s = 0).
    { unfold live_count. clear - H. induction (r_handles s) as [|h l IH]; [reflexivity|].
      rewrite cntb_cons, (H h (or_introl eq_refl)). cbn [is_live Z.b2z]. rewrite IH; [reflexivity|].
      intros x I. apply H. right. exact I. }
    destruct (Z.eq_dec (r_freed s) 0) as [F|F]; [specialize (A E1 F); lia|lia].
Qed.

(** The owner of a handle finds the buffer alterable exactly when it is not a read-only one and no other handle is in use. *)
Theorem C24_alterable_means_alone_partial : forall s l1 l2, rreach_lim s ->
  r_handles s = l1 ++ Held :: l2 -> forall readonly,
  (is_alterable (r_cnt s) readonly = true <-> readonly = false /\ forall h, In h (l1 ++ l2) -> h = Dropped).
Proof.
  intros s l1 l2 R E readonly.
  destruct (C24_freed_exactly_once_partial s R) as (_ & B & _).
  destruct B as (B1 & B2 & B3).
  { exists Held. split; [rewrite E; apply in_or_app; right; left; reflexivity|left; reflexivity]. }
  split.
  2:{ intros [-> Al]. unfold is_alterable. rewrite B3. unfold live_count. rewrite E, cntb_app, cntb_cons.
    assert (Z0 : forall l, (forall h, In h l -> h = Dropped) -> cntb is_live l = 0).
    { clear. induction l as [|h l IH]; intros H; [reflexivity|]. rewrite cntb_cons, (H h (or_introl eq_refl)), IH by (intros x I; apply H; right; exact I). reflexivity. }
    rewrite !Z0 by (intros h I; apply Al, in_or_app; auto). reflexivity. }
  intros Al. unfold is_alterable in Al. split; [destruct readonly; [rewrite andb_false_r in Al; discriminate|reflexivity]|]. intros h I.
  assert (C1 : live_count s = 1) by (rewrite <- B3; clear - Al; lia).
  unfold live_count in C1. rewrite E, cntb_app, cntb_cons in C1. cbn [is_live Z.b2z] in C1.
  assert (C2 : cntb is_live (l1 ++ l2) = 0).
  { rewrite cntb_app. pose proof (cntb_nonneg is_live l1). pose proof (cntb_nonneg is_live l2). lia. }
  pose proof (cntb_zero _ _ C2 h I) as L.
  assert (Ih : In h (r_handles s)) by (rewrite E; apply in_app_or in I; apply in_or_app; destruct I as [I|I]; [left|right; right]; exact I).
  destruct (B2 h Ih) as [X Y]. destruct h; try discriminate L; congruence.
Qed.

(** non-vacuous: two copies, two threads racing in [detach], the loser frees *)
Example C24_race : exists s, rreach_lim s /\ r_freed s = 1 /\ r_handles s = [Dropped; Dropped; Dropped].
Proof.
  exists (mkR (-1) 1 [Dropped; Dropped; Dropped]). split; [|split; reflexivity].
  assert (S1 : rreach_lim (mkR 2 0 [Held; Held])).
  { eapply rl_step; [apply rl_init|apply (r_copy 1 0 [] [])|reflexivity]. }
  assert (S2 : rreach_lim (mkR 3 0 [Held; Held; Held])).
  { eapply rl_step; [exact S1|apply (r_copy 2 0 [] [Held])|reflexivity]. }
  assert (S3 : rreach_lim (mkR 3 0 [Held; Deciding; Held])).
  { eapply rl_step; [exact S2|apply (r_look 3 0 [Held] [Held])|reflexivity]. }
  assert (S4 : rreach_lim (mkR 3 0 [Deciding; Deciding; Held])).
  { eapply rl_step; [exact S3|apply (r_look 3 0 [] [Deciding; Held])|reflexivity]. }
  assert (S5 : rreach_lim (mkR 3 0 [Deciding; Deciding; Deciding])).
  { eapply rl_step; [exact S4|apply (r_look 3 0 [Deciding; Deciding] [])|reflexivity]. }
  assert (S6 : rreach_lim (mkR 2 0 [Deciding; Dropped; Deciding])).
  { eapply rl_step; [exact S5|apply (r_dec 3 0 [Deciding] [Deciding])|reflexivity]. }
  assert (S7 : rreach_lim (mkR 1 0 [Deciding; Dropped; Dropped])).
  { eapply rl_step; [exact S6|apply (r_dec 2 0 [Deciding; Dropped] [])|reflexivity]. }
  assert (S8 : rreach_lim (mkR 0 0 [Freeing; Dropped; Dropped])).
  { eapply rl_step; [exact S7|apply (r_dec 1 0 [] [Dropped; Dropped])|reflexivity]. }
  assert (S9 : rreach_lim (mkR (-1) 0 [Drowned; Dropped; Dropped])).
  { eapply rl_step; [exact S8|apply (r_drown 0 0 [] [Dropped; Dropped])|reflexivity]. }
  eapply rl_step; [exact S9|apply (r_repay (-1) 0 [] [Dropped; Dropped])|reflexivity].
Qed.
Example C24_alone : exists s l1 l2, rreach_lim s /\ r_handles s = l1 ++ Held :: l2 /\ is_alterable (r_cnt s) false = true /\ l1 ++ l2 <> [].
Proof.
  exists (mkR 1 0 [Held; Dropped]), [], [Dropped]. split; [|split; [reflexivity|split; [reflexivity|discriminate]]].
  assert (S1 : rreach_lim (mkR 2 0 [Held; Held])).
  { eapply rl_step; [apply rl_init|apply (r_copy 1 0 [] [])|reflexivity]. }
  assert (S2 : rreach_lim (mkR 2 0 [Held; Deciding])).
  { eapply rl_step; [exact S1|apply (r_look 2 0 [Held] [])|reflexivity]. }
  eapply rl_step; [exact S2|apply (r_dec 2 0 [Held] [])|reflexivity].
Qed.

(** Without the bound the property fails: the counter has 32 bits.  With 2^31 + 1 handles in use the
    first one to be dropped repays the buffer under the feet of all the others. *)
Lemma i32_alt x : i32 x = (x + 2 ^ 31) mod 2 ^ 32 - 2 ^ 31.
Proof. unfold i32, sgn, u32. change (2 ^ (32 - 1)) with (2 ^ 31). rewrite Z.mod_mod by lia. destruct (_ <? _) eqn:E; lia. Qed.
Lemma i32_next x : i32 (i32 x + 1) = i32 (x + 1).
Proof. rewrite !i32_alt. lia. Qed.
Lemma copies n : rreach (mkR (i32 (Z.of_nat n + 1)) 0 (Held :: repeat Held n)).
Proof.
  induction n as [|n IH]; [apply rr_init|]. eapply rr_step; [exact IH|].
  replace (Z.of_nat (S n) + 1) with (Z.of_nat n + 1 + 1) by lia. rewrite <- (i32_next (Z.of_nat n + 1)).
  change (repeat Held (S n)) with (Held :: repeat Held n).
  replace (Held :: repeat Held n) with (repeat Held n ++ [Held]) at 2 by (symmetry; apply (repeat_cons n Held)).
  apply (r_copy _ 0 [] (repeat Held n)).
Qed.
Theorem C24_counter_overflow_refuted :
  exists s, rreach s /\ r_freed s = 1 /\ In Held (r_handles s).
Proof.
  set (n := Z.to_nat (2 ^ 31)). assert (Hn : Z.of_nat n = 2 ^ 31) by (apply Z2Nat.id; lia).
  assert (Hn1 : exists k, n = S k) by (exists (pred n); clear - Hn; lia). clearbody n. destruct Hn1 as [k ->].
  exists (mkR (-1) 1 (Dropped :: repeat Held (S k))). split; [|split; [reflexivity|right; left; reflexivity]].
  pose proof (copies (S k)) as S0. rewrite Hn in S0. change (i32 (2 ^ 31 + 1)) with (- 2 ^ 31 + 1) in S0.
  assert (S1 : rreach (mkR (- 2 ^ 31 + 1) 0 (Deciding :: repeat Held (S k)))).
  { eapply rr_step; [exact S0|apply (r_look (- 2 ^ 31 + 1) 0 [])]. }
  assert (S2 : rreach (mkR (- 2 ^ 31) 0 (Freeing :: repeat Held (S k)))).
  { eapply rr_step; [exact S1|apply (r_dec (- 2 ^ 31 + 1) 0 [])]. }
  assert (S3 : rreach (mkR (-1) 0 (Drowned :: repeat Held (S k)))).
  { eapply rr_step; [exact S2|apply (r_drown _ 0 [])]. }
  eapply rr_step; [exact S3|apply (r_repay (-1) 0 [])].
Qed.

(** ** C25. Buffers are at least as large as requested *)
(** [g] is the guard size of the build; the heap block is assumed to start anywhere. *)
Theorem C25_space_sufficient : forall g wanna block b, g = 0 \/ g = 8 -> 0 <= wanna ->
  borrow g wanna block = Some b ->
  wanna <= b_space b /\
  (* the header, the payload and the guard after it lie inside what was asked of the heap *)
  b_block b <= b_addr b /\ b_addr b + inplace_offset g = b_data b /\
  b_data b + b_space b + g + g <= b_block b + b_block_size b /\
  (* nothing is wasted beyond the rounding *)
  b_space b < wanna + 64.
Proof.
  intros g wanna block b Hg Hw H. destruct (borrow_ok g wanna block b Hg Hw H) as (A & B & C & D & E & F & _).
  repeat split; try lia.
Qed.
(** what is returned to the heap is the very block, with its size *)
Theorem C25_repays_same_block : forall g wanna block b, g = 0 \/ g = 8 -> 0 <= wanna ->
  borrow g wanna block = Some b -> repay g (b_addr b) (b_space b) = (b_block b, b_block_size b).
Proof. intros g wanna block b Hg Hw H. apply (borrow_ok g wanna block b Hg Hw H). Qed.
(** every size in the allowed range is granted, no other *)
Theorem C25_granted_iff_in_range : forall g wanna block,
  (exists b, borrow g wanna block = Some b) <-> 1 <= wanna <= 524272.
Proof.
  intros g wanna block. unfold borrow. change buffer_limit with 524272. destruct (_ || _) eqn:E.
  - split; [intros [b H]; discriminate|intros H; lia].
  - split; [intros _; lia|intros _; eexists; reflexivity].
Qed.
(** The offsets are those the rules of C give to the members of hippeus_buffer_C: each member at
    the next multiple of its alignment, the whole a multiple of the largest.
    (size, alignment): guard_head, _data_offset, simple_msg, space, ref_counter, host, guard_under,
    _inplace[1].  src: buffer.h:313-349, hipagut.h:69-78, 116-118 *)
Definition aligned (x a : Z) : Z := (x + a - 1) / a * a.
Fixpoint place (ms : list (Z * Z)) (x : Z) : list Z * Z :=
  match ms with
  | [] => ([], x)
  | (n, a) :: ms => let o := aligned x a in let '(l, e) := place ms (o + n) in (o :: l, e)
  end.
Definition buffer_members (g : Z) : list (Z * Z) :=
  let guard := if g =? 0 then [] else [(g, 8)] in guard ++ [(8, 8); (8, 8); (4, 4); (4, 4); (8, 8)] ++ guard ++ [(1, 1)].
Theorem C25_layout : forall g, g = 0 \/ g = 8 ->
  let '(offsets, e) := place (buffer_members g) 0 in
  last offsets (-1) = inplace_offset g /\ aligned e 8 = sizeof_buffer g.
Proof. intros g [-> | ->]; vm_compute; split; reflexivity. Qed.
Example C25_case : exists b, borrow 8 1000 4096 = Some b /\ b_space b >= 1000 /\ repay 8 (b_addr b) (b_space b) = (4096, b_block_size b).
Proof. eexists. split; [reflexivity|]. split; [vm_compute; congruence|vm_compute; reflexivity]. Qed.

(** ** C49. Memory guards *)
(** A guard that was set up passes its own check, whatever the clock and the signature. *)
Theorem C49_guard_accepts_itself : forall n clock sig chirp mesh,
  guard_setup n clock sig = Some (chirp, mesh) -> guard_probe chirp mesh sig = true.
Proof. intros n clock sig chirp mesh H. exact (guard_setup_probe n clock sig _ H). Qed.
(** Any change of the second word is noticed, and so is any change of the signature that changes
    what the first word is mixed to; an erased or filled guard is never accepted. *)
Theorem C49_guard_detects : forall chirp mesh mesh' sig,
  guard_probe chirp mesh sig = true -> mesh' <> mesh -> guard_probe chirp mesh' sig = false.
Proof.
  intros chirp mesh mesh' sig H N. unfold guard_probe in *. rewrite !Bool.andb_true_iff in H. destruct H as [_ H].
  apply Z.eqb_eq in H. replace (mesh' =? mixup chirp sig) with false by (symmetry; apply Z.eqb_neq; congruence). apply Bool.andb_false_r.
Qed.
Theorem C49_drowned_guard_rejected : forall sig, guard_probe (fst drowned_guard) (snd drowned_guard) sig = false.
Proof. intros sig. reflexivity. Qed.
Theorem C49_blank_guard_rejected : forall other sig,
  guard_probe 0 other sig = false /\ guard_probe (2 ^ 32 - 1) other sig = false /\
  guard_probe other 0 sig = false /\ guard_probe other (2 ^ 32 - 1) sig = false.
Proof.
  intros other sig. unfold guard_probe. change (fairly 0) with false. change (fairly (2 ^ 32 - 1)) with false.
  rewrite !Bool.andb_false_r. repeat split.
Qed.
(** Neither word may have an upper half of zeros or of ones. *)
Theorem C49_smudged_guard_rejected : forall v other sig, 0 <= v < 2 ^ 32 -> v / 2 ^ 16 = 0 \/ v / 2 ^ 16 = 2 ^ 16 - 1 ->
  guard_probe v other sig = false /\ guard_probe other v sig = false.
Proof.
  intros v other sig V H. change (2 ^ 32) with 4294967296 in V. change (2 ^ 16 - 1) with 65535 in H. change (2 ^ 16) with 65536 in H.
  assert (F : fairly v = false) by (unfold fairly; lia). unfold guard_probe. rewrite F. rewrite Bool.andb_false_r. split; reflexivity.
Qed.
(** Setting up always ends: the generator visits every 32-bit value. *)
Fixpoint rounds (n : nat) (x : Z) : Z := match n with O => x | S n => rounds n (u32 (x * 1664525 + 1013904223)) end.
Lemma rounds_add n : forall k x, rounds (n + k) x = rounds k (rounds n x).
Proof. induction n as [|n IH]; intros k x; [reflexivity|]. cbn [rounds Nat.add]. apply IH. Qed.
Lemma rounds_range n : forall x, 0 <= x < 2 ^ 32 -> 0 <= rounds n x < 2 ^ 32.
Proof. induction n as [|n IH]; intros x H; [exact H|]. cbn [rounds]. apply IH. unfold u32. apply Z.mod_pos_bound. lia. Qed.
Lemma rounds_pow k : exists A C u w, A = 1 + 4 * 2 ^ Z.of_nat k * u /\ C = 2 ^ Z.of_nat k * (2 * w + 1) /\
  forall x, exists q, rounds (2 ^ k) x = x * A + C - 2 ^ 32 * q.
Proof.
  induction k as [|k (A & C & u & w & EA & EC & H)].
  - exists 1664525, 1013904223, 416131, 506952111. split; [reflexivity|]. split; [reflexivity|]. intros x.
    exists ((x * 1664525 + 1013904223) / 2 ^ 32). cbn [Nat.pow rounds]. unfold u32.
    rewrite Z.mod_eq by lia. reflexivity.
  - set (P := 2 ^ Z.of_nat k) in *. assert (EP : 2 ^ Z.of_nat (S k) = 2 * P) by (unfold P; rewrite Nat2Z.inj_succ, Z.pow_succ_r by lia; reflexivity).
    rewrite EP. exists (A * A), ((A + 1) * C), (u + 2 * P * u * u), (2 * (P * u * w) + P * u + w).
    split; [subst A; ring|]. split; [rewrite EA, EC; ring|]. intros x.
    replace (2 ^ S k)%nat with (2 ^ k + 2 ^ k)%nat by (cbn [Nat.pow]; lia). rewrite rounds_add.
    destruct (H x) as [q1 ->]. destruct (H (x * A + C - 2 ^ 32 * q1)) as [q2 ->]. exists (q1 * A + q2). ring.
Qed.
Lemma rounds_reach k : (k <= 32)%nat -> forall x t, exists n r, Z.of_nat n < 2 ^ Z.of_nat k /\ rounds n x - t = 2 ^ Z.of_nat k * r.
Proof.
  induction k as [|k IH]; intros K x t.
  - exists 0%nat, (x - t). change (Z.of_nat 0) with 0. cbn [rounds]. split; [lia|lia].
  - destruct (IH ltac:(lia) x t) as (n & r & N & R). set (P := 2 ^ Z.of_nat k) in *.
    assert (EP : 2 ^ Z.of_nat (S k) = 2 * P) by (unfold P; rewrite Nat2Z.inj_succ, Z.pow_succ_r by lia; reflexivity).
    assert (PP : 0 < P) by (apply Z.pow_pos_nonneg; lia). rewrite EP. clear IH.
    destruct (Z.Even_or_Odd r) as [[h Hh]|[h Hh]].
    + exists n, h. split; [lia|]. rewrite R, Hh. ring.
    + destruct (rounds_pow k) as (A & C & u & w & EA & EC & H). fold P in EA, EC.
      destruct (H (rounds n x)) as [q Q]. exists (n + 2 ^ k)%nat, (h + 1 + 2 * (rounds n x) * u + w - 2 ^ (32 - Z.of_nat k - 1) * q).
      split; [rewrite Nat2Z.inj_add, Nat2Z.inj_pow; change (Z.of_nat 2) with 2; fold P; lia|]. rewrite rounds_add, Q. replace (rounds n x * A + C - 2 ^ 32 * q - t) with ((rounds n x - t) + rounds n x * (A - 1) + C - 2 ^ 32 * q) by ring.
      rewrite R, Hh, EA, EC. replace (2 ^ 32) with (2 * P * 2 ^ (32 - Z.of_nat k - 1)); [ring|].
      unfold P. rewrite <- Z.mul_assoc, <- Z.pow_add_r by lia. replace (Z.of_nat k + (32 - Z.of_nat k - 1)) with 31 by lia. reflexivity.
Qed.
Lemma generator_visits_all x t : 0 <= x < 2 ^ 32 -> 0 <= t < 2 ^ 32 -> exists n, Z.of_nat n < 2 ^ 32 /\ rounds n x = t.
Proof.
  intros X T. destruct (rounds_reach 32 (le_n _) x t) as (n & r & N & R). exists n. split; [exact N|].
  pose proof (rounds_range n x X) as Y. change (Z.of_nat 32) with 32 in R. change (2 ^ 32) with 4294967296 in *. lia.
Qed.
Lemma setup_stops sig n : forall clock, fairly (rounds n clock) && fairly (mixup (rounds n clock) sig) = true -> exists r, guard_setup (S n) clock sig = Some r.
Proof.
  induction n as [|n IH]; intros clock H.
  - cbn [rounds] in H. exists (clock, mixup clock sig). cbn [guard_setup]. rewrite H. reflexivity.
  - change (guard_setup (S (S n)) clock sig) with (if fairly clock && fairly (mixup clock sig) then Some (clock, mixup clock sig) else guard_setup (S n) (u32 (clock * 1664525 + 1013904223)) sig).
    destruct (fairly clock && _); [eexists; reflexivity|]. apply IH. exact H.
Qed.
Lemma some_chirp sig : exists c, 0 <= c < 2 ^ 32 /\ fairly c && fairly (mixup c sig) = true.
Proof.
  assert (G : forall v, 0 <= v < 2 ^ 32 -> fairly (mixup v 0) = true -> fairly (u32 (v - sig)) = true ->
    exists c, 0 <= c < 2 ^ 32 /\ fairly c && fairly (mixup c sig) = true).
  { intros v V M F. exists (u32 (v - sig)). split; [unfold u32; apply Z.mod_pos_bound; lia|]. rewrite F. cbn [andb].
    assert (E : u32 (u32 (v - sig) + sig) = u32 (v + 0)) by (unfold u32; rewrite Z.add_mod_idemp_l by lia; f_equal; lia).
    unfold mixup in *. rewrite E. exact M. }
  destruct (fairly (u32 (1 - sig))) eqn:F.
  - apply (G 1); [lia|vm_compute; reflexivity|exact F].
  - apply (G (2 ^ 31 + 1)); [lia|vm_compute; reflexivity|]. revert F. unfold fairly, u32. change (2 ^ 31) with 2147483648. change (2 ^ 32) with 4294967296. lia.
Qed.
Theorem C49_setup_ends : forall clock sig, 0 <= clock < 2 ^ 32 ->
  exists n chirp mesh, Z.of_nat n <= 2 ^ 32 /\ guard_setup n clock sig = Some (chirp, mesh).
Proof.
  intros clock sig H. destruct (some_chirp sig) as (c & C & F). destruct (generator_visits_all clock c H C) as (n & N & E).
  rewrite <- E in F. destruct (setup_stops sig n clock F) as ([chirp mesh] & G). exists (S n), chirp, mesh. split; [rewrite Nat2Z.inj_succ; lia|exact G].
Qed.
(** A changed signature is not always noticed: the mix of two sums may be the same. *)
Theorem C49_signature_refuted : exists chirp mesh sig sig', guard_probe chirp mesh sig = true /\ guard_probe chirp mesh sig' = true /\ sig <> sig' /\ 0 <= sig < 2 ^ 32 /\ 0 <= sig' < 2 ^ 32.
Proof. exists 65536, 0x8711420b, 97080, 12619. vm_compute. repeat split; discriminate || reflexivity. Qed.
Example C49_case : exists r, guard_setup 5 7 12345 = Some r /\ guard_probe (fst r) (snd r) 12345 = true /\ guard_probe (fst r) (snd r) 12346 = false.
Proof. eexists. split; [vm_compute; reflexivity|]. split; vm_compute; reflexivity. Qed.

(** ** C44. Buffer tags *)
Theorem C44_parts_kept : forall allot_id depot crate flags,
  0 <= flags < 16 -> 0 <= allot_id < 2 ^ 28 -> 0 <= depot < 2 ^ 16 -> 0 <= crate < 2 ^ 16 ->
  let t := tag_of_parts allot_id depot crate flags in
  tag_flags t = flags /\ tag_allot_id t = allot_id /\ tag_depot t = depot /\ tag_crate t = crate /\ 0 <= t < 2 ^ 64.
Proof.
  intros allot_id depot crate flags H1 H2 H3 H4 t. unfold t. rewrite tag_value by assumption.
  unfold tag_flags, tag_allot_id, tag_depot, tag_crate.
  change 15 with (2 ^ 4 - 1). rewrite !land_mask, !Z.shiftr_div_pow2 by lia. lia.
Qed.
Theorem C44_local_kept : forall allot readonly, 0 <= allot < 2 ^ 64 -> allot mod 16 = 0 ->
  let t := tag_of_local allot readonly in
  tag_local_allot t = allot /\ tag_flags t = (if readonly then 3 else 2) /\ 0 <= t < 2 ^ 64.
Proof.
  intros allot readonly H A t.
  assert (E : t = allot + (if readonly then 3 else 2)).
  { unfold t, tag_of_local. replace allot with (allot / 16 * 2 ^ 4) at 1 by lia. change (Z.lor 2 1) with 3.
    rewrite lor_pack by (destruct readonly; lia). change (2 ^ 4) with 16. lia. }
  rewrite E. unfold tag_local_allot, tag_flags. change 16 with (2 ^ 4) at 1. rewrite land_round by (destruct readonly; lia).
  change 15 with (2 ^ 4 - 1). rewrite land_mask by lia. change (2 ^ 4) with 16. destruct readonly; lia.
Qed.
Example C44_case : let t := tag_of_parts 77 3 65535 9 in tag_flags t = 9 /\ tag_allot_id t = 77 /\ tag_depot t = 3 /\ tag_crate t = 65535.
Proof. repeat split. Qed.

(** ** C34. Tagged pointers keep both parts *)
(** True of untagged pointers, and of replacing the pointer. *)
Theorem C34_untagged_partial : forall p, 0 <= p < 2 ^ 64 -> p mod 16 = 0 ->
  narrow_ptr (narrow_make p 0) = p /\ narrow_tag (narrow_make p 0) = 0.
Proof.
  intros p H A. unfold narrow_make, narrow_ptr, narrow_tag. change (u64 (Z.shiftl 0 4)) with 0. rewrite Z.lor_0_r.
  change (2 ^ 64 - 16) with (2 ^ 64 - 2 ^ 4). rewrite land_round by lia. change 15 with (2 ^ 4 - 1). rewrite land_mask by lia.
  change (2 ^ 4) with 16. lia.
Qed.
Theorem C34_untagged_wide_partial : forall p, 0 <= p < 2 ^ 48 ->
  wide_ptr (wide_make p 0) = p /\ wide_tag (wide_make p 0) = 0.
Proof.
  intros p H. unfold wide_make, wide_ptr, wide_tag. change (u64 (Z.shiftl 0 16)) with 0. rewrite Z.lor_0_r, land_mask, Z.shiftr_div_pow2 by lia. lia.
Qed.
Theorem C34_set_ptr_keeps_tag_partial : forall b p, 0 <= b < 2 ^ 64 -> 0 <= p < 2 ^ 64 -> p mod 16 = 0 ->
  narrow_ptr (narrow_set_ptr b p) = p /\ narrow_tag (narrow_set_ptr b p) = narrow_tag b.
Proof.
  intros b p Hb Hp A. unfold narrow_set_ptr, narrow_ptr, narrow_tag. change 15 with (2 ^ 4 - 1). rewrite (land_mask b) by lia.
  rewrite Z.lor_comm. replace p with (p / 16 * 2 ^ 4) at 1 3 by lia. rewrite lor_pack by lia.
  change (2 ^ 64 - 16) with (2 ^ 64 - 2 ^ 4). rewrite land_round by lia. rewrite land_mask by lia. change (2 ^ 4) with 16. lia.
Qed.
Theorem C34_set_ptr_keeps_tag_wide_partial : forall b p, 0 <= b < 2 ^ 64 -> 0 <= p < 2 ^ 48 ->
  wide_ptr (wide_set_ptr b p) = p /\ wide_tag (wide_set_ptr b p) = wide_tag b.
Proof.
  intros b p Hb Hp. unfold wide_set_ptr, wide_ptr, wide_tag. rewrite land_round by lia. rewrite lor_pack by lia.
  rewrite land_mask, !Z.shiftr_div_pow2 by lia. lia.
Qed.
(** the two parts make up the word *)
Theorem C34_parts : forall b, 0 <= b < 2 ^ 64 ->
  b = 2 ^ 48 * wide_tag b + wide_ptr b /\ 0 <= wide_tag b < 2 ^ 16 /\ b = narrow_ptr b + narrow_tag b /\ 0 <= narrow_tag b < 16.
Proof.
  intros b H. unfold wide_tag, wide_ptr, narrow_ptr, narrow_tag. rewrite land_mask, Z.shiftr_div_pow2 by lia.
  change (2 ^ 64 - 16) with (2 ^ 64 - 2 ^ 4). rewrite land_round by lia. change 15 with (2 ^ 4 - 1). rewrite land_mask by lia. 
  change (2 ^ 48) with 281474976710656 in *. change (2 ^ 16) with 65536 in *. change (2 ^ 64) with 18446744073709551616 in *. change (2 ^ 4) with 16. lia.
Qed.
(** But no tag is ever returned: whatever was stored, reading gives 0, so every nonzero tag is
    lost (it is stored next to the place where it is looked for). *)
Theorem C34_tag_lost_refuted :
  (forall p tag, 0 <= p < 2 ^ 64 -> p mod 16 = 0 -> 0 < tag < 16 -> narrow_tag (narrow_make p tag) <> tag) /\
  (forall p tag, 0 <= p < 2 ^ 48 -> 0 < tag < 2 ^ 16 -> wide_tag (wide_make p tag) <> tag) /\
  (exists p tag, 0 <= p < 2 ^ 48 /\ p mod 16 = 0 /\ 0 < tag < 16 /\ narrow_ptr (narrow_make p tag) <> p /\ wide_ptr (wide_make p tag) <> p).
Proof.
  split; [|split].
  - intros p tag H A T. unfold narrow_make, narrow_tag, u64. rewrite (shl_small tag 4 64) by lia.
    replace p with (p / 16 * 2 ^ 4 + 0) by lia. replace (tag * 2 ^ 4) with (tag * 2 ^ 4 + 0) by lia. rewrite lor_split by lia.
    change 15 with (2 ^ 4 - 1). rewrite land_mask by lia. change (Z.lor 0 0) with 0. change (2 ^ 4) with 16. lia.
  - intros p tag H T. unfold wide_make, wide_tag, u64. rewrite (shl_small tag 16 64) by lia.
    rewrite Z.shiftr_div_pow2 by lia.
    pose proof (lor_bound p (tag * 2 ^ 16) 48 ltac:(lia) H ltac:(lia)). lia.
  - exists 4096, 1. repeat split; vm_compute; congruence.
Qed.

(** What set_tag and the constructor do instead: the tag is laid over the low bits of the pointer. *)
Theorem C34_set_tag_refuted : forall b tag, 0 <= b < 2 ^ 64 ->
  (0 <= tag < 16 -> narrow_tag (narrow_set_tag b tag) = 0 /\ narrow_ptr (narrow_set_tag b tag) = Z.lor (narrow_ptr b) (16 * tag)) /\
  (0 <= tag < 2 ^ 16 -> wide_tag (wide_set_tag b tag) = 0 /\ wide_ptr (wide_set_tag b tag) = Z.lor (wide_ptr b) (2 ^ 16 * tag)).
Proof.
  intros b tag Hb. split; intros T.
  - unfold narrow_set_tag, narrow_ptr, narrow_tag, u64. rewrite (shl_small tag 4 64) by lia. change (2 ^ 64 - 16) with (2 ^ 64 - 2 ^ 4). rewrite land_round by lia.
    replace (16 * tag) with (tag * 2 ^ 4 + 0) by lia. replace (tag * 2 ^ 4) with (tag * 2 ^ 4 + 0) at 1 2 by lia. replace (b / 2 ^ 4 * 2 ^ 4) with (b / 2 ^ 4 * 2 ^ 4 + 0) by lia.
    rewrite lor_split by lia. change (Z.lor 0 0) with 0. rewrite !Z.add_0_r. change 15 with (2 ^ 4 - 1). rewrite land_mask by lia.
    pose proof (lor_bound (b / 2 ^ 4) tag 60 ltac:(lia) ltac:(lia) ltac:(lia)). rewrite land_round by lia. split; [|f_equal]; lia.
  - unfold wide_set_tag, wide_ptr, wide_tag, u64. rewrite (shl_small tag 16 64) by lia. rewrite land_mask by lia.
    pose proof (lor_bound (b mod 2 ^ 48) (tag * 2 ^ 16) 48 ltac:(lia) ltac:(lia) ltac:(lia)). rewrite land_mask, Z.shiftr_div_pow2 by lia.
    rewrite (Z.mul_comm (2 ^ 16) tag). split; lia.
Qed.

(** ** C35. Bulk memory helpers respect their bounds *)
(** Whatever the alignment: [pollute] xors every byte of the range with a key byte that does not
    depend on the contents of memory, and changes nothing else. *)
Theorem C35_pollute_xors_range_only : forall p bytes mask, 0 <= mask ->
  exists K : Z -> Z, forall m, bytes_mem m -> forall x,
    pollute m p bytes mask x = (if (p <=? x) && (x <? p + bytes) then Z.lxor (m x) (K x) else m x) /\
    0 <= pollute m p bytes mask x < 256.
Proof.
  intros p bytes mask Hm. unfold pollute. destruct (bytes >? 0) eqn:E.
  - destruct (negb (mask =? 0)).
    + destruct (pollute_applier false mask p bytes ltac:(lia)) as (K & _ & H). exists K. intros m B x.
      destruct (H m B) as (v & m' & E1 & X & B'). rewrite E1. cbn [fst snd]. split; [apply X|apply B'].
    + destruct (pollute_applier true (Z.lxor bytes p) p bytes ltac:(lia)) as (K & _ & H). exists K. intros m B x.
      destruct (H m B) as (v & m' & E1 & X & B'). rewrite E1. cbn [fst snd]. split; [apply X|apply B'].
  - exists (fun _ => 0). intros m B x. replace ((p <=? x) && (x <? p + bytes)) with false by lia. split; [reflexivity|apply B].
Qed.
(** with a nonzero mask the key is the mask, laid out by machine words *)
Theorem C35_pollute_key_is_mask : forall m p bytes mask x, bytes_mem m -> mask <> 0 -> p <= x < p + bytes ->
  pollute m p bytes mask x = Z.lxor (m x) (mask / 256 ^ (x mod 8) mod 256).
Proof.
  intros m p bytes mask x B N Hx. unfold pollute. replace (bytes >? 0) with true by lia.
  replace (negb (mask =? 0)) with true by lia.
  destruct (pollute_applier false mask p bytes ltac:(lia)) as (K & K1 & H).
  destruct (H m B) as (v & m' & E1 & X & B'). rewrite E1. cbn [fst snd]. rewrite X.
  replace ((p <=? x) && (x <? p + bytes)) with true by lia. rewrite K1 by assumption. rewrite keyword_false, byte_at_div by lia. reflexivity.
Qed.
(** without a mask the key is a sequence of pseudo-random words that does not depend on the memory,
    one word for each machine word touched *)
Fixpoint mmix (n : nat) (seed : Z) : Z :=
  match n with O => seed | S n => (mmix n seed * 6364136223846793005 + 1442695040888963407) mod 2 ^ 64 end.
Theorem C35_pollute_key_is_random : forall m p bytes x, bytes_mem m -> p <= x < p + bytes ->
  pollute m p bytes 0 x = Z.lxor (m x) (mmix (Z.to_nat (x / 8 - p / 8 + 1)) (Z.lxor bytes p) / 256 ^ (x mod 8) mod 256).
Proof.
  intros m p bytes x B Hx. unfold pollute. replace (bytes >? 0) with true by lia. change (negb (0 =? 0)) with false. cbv iota.
  destruct (pollute_applier true (Z.lxor bytes p) p bytes ltac:(lia)) as (K & K1 & H).
  destruct (H m B) as (v & m' & E1 & X & B'). rewrite E1. cbn [fst snd]. rewrite X.
  replace ((p <=? x) && (x <? p + bytes)) with true by lia. rewrite K1 by assumption. rewrite byte_at_div by lia.
  replace (Z.to_nat (x / 8 - p / 8 + 1)) with (S (Z.to_nat ((x - (p - p mod 8)) / 8))) by lia.
  assert (Q : forall n, keyword true n (Z.lxor bytes p) = mmix n (Z.lxor bytes p)).
  { induction n as [|n IH]; [reflexivity|]. unfold keyword in *. cbn [Nat.iter nat_rect mmix]. rewrite <- IH. reflexivity. }
  rewrite Q. reflexivity.
Qed.
(** the words do not repeat while the seed differs: a step loses nothing *)
Theorem C35_words_differ : forall a b, 0 <= a < 2 ^ 64 -> 0 <= b < 2 ^ 64 -> linear_congruential a = linear_congruential b -> a = b.
Proof.
  intros a b Ha Hb E. unfold linear_congruential, u64 in E.
  assert (D : (6364136223846793005 * (a - b)) mod 2 ^ 64 = 0).
  { replace (6364136223846793005 * (a - b)) with ((a * 6364136223846793005 + 1442695040888963407) - (b * 6364136223846793005 + 1442695040888963407)) by ring.
    rewrite Zminus_mod, E, Z.sub_diag. reflexivity. }
  assert (G : (a - b) mod 2 ^ 64 = 0).
  { replace (a - b) with (13877824140714322085 * (6364136223846793005 * (a - b)) - ((13877824140714322085 * 6364136223846793005 - 1) / 2 ^ 64) * (a - b) * 2 ^ 64).
    2:{ change ((13877824140714322085 * 6364136223846793005 - 1) / 2 ^ 64) with (let q := (13877824140714322085 * 6364136223846793005 - 1) / 2 ^ 64 in q). vm_compute ((_ - _) / _). cbv zeta. ring. }
    rewrite Zminus_mod, Z_mod_mult, Z.sub_0_r, Z.mod_mod, Z.mul_mod, D, Z.mul_0_r by lia. reflexivity. }
  lia.
Qed.
Theorem C35_pollute_twice_restores : forall m p bytes mask, bytes_mem m -> 0 <= mask ->
  forall x, pollute (pollute m p bytes mask) p bytes mask x = m x.
Proof.
  intros m p bytes mask B Hm x. destruct (C35_pollute_xors_range_only p bytes mask Hm) as [K H].
  assert (B2 : bytes_mem (pollute m p bytes mask)) by (intros y; apply (H m B y)).
  rewrite (proj1 (H _ B2 x)), (proj1 (H m B x)). destruct (_ && _); [|reflexivity].
  rewrite Z.lxor_assoc, Z.lxor_nilpotent, Z.lxor_0_r. reflexivity.
Qed.
Theorem C35_zero_test_exact : forall m p bytes, bytes_mem m ->
  (is_zeroed m p bytes = true <-> 0 < bytes /\ forall x, p <= x < p + bytes -> m x = 0).
Proof.
  intros m p bytes B. destruct (Z_lt_ge_dec 0 bytes) as [L|G].
  - rewrite is_zeroed_iff by assumption. tauto.
  - unfold is_zeroed. replace (bytes >? 0) with false by lia. split; [discriminate|lia].
Qed.
Definition demo_mem : bmem := fun x => (x * x * 7 + 3) mod 256.
Example C35_case : bytes_mem demo_mem /\ map (pollute demo_mem 1003 18 0) [1002; 1021] = map demo_mem [1002; 1021] /\
  map (pollute demo_mem 1003 18 0) [1003; 1007; 1012; 1020] <> map demo_mem [1003; 1007; 1012; 1020].
Proof. split; [intros x; unfold demo_mem; lia|]. split; [reflexivity|vm_compute; congruence]. Qed.
Example C35_case_zero : is_zeroed (fun x => if x =? 1021 then 5 else 0) 1003 18 = true /\ is_zeroed (fun x => if x =? 1020 then 5 else 0) 1003 18 = false.
Proof. split; reflexivity. Qed.

(** ** C50. Size classes *)
(** [log2size] returns the least size class that fits, classes being powers of two from the lower
    bound in steps of [step], clipped at the upper bound. *)
Theorem C50_least_fitting_class : forall value lo step j, 0 <= lo -> 0 < step -> 0 < j -> lo + step * j < 64 ->
  exists e, 0 <= e <= j /\ log2size value lo (lo + step * j) step = 2 ^ (lo + step * e) /\
    (value <= 2 ^ (lo + step * e) \/ e = j) /\
    (forall i, 0 <= i < e -> 2 ^ (lo + step * i) < value).
Proof.
  intros value lo step j Hlo Hs Hj H64. unfold log2size.
  destruct (log2size_inv (Z.to_nat (lo + step * j)) value 0 j lo step) as (e & A & B & C & D); try lia.
  rewrite Z.mul_0_r, Z.add_0_r in B. exists e. auto.
Qed.
Example C50_case : log2size 1000 4 12 2 = 1024 /\ log2size 1025 4 12 2 = 4096 /\ log2size 9999 4 12 2 = 4096 /\ log2size 3 4 12 2 = 16.
Proof. repeat split. Qed.

(** ** C42. Byte-pattern predicates *)
Theorem C42_is_zero_exact : forall bytes m a, 1 <= bytes -> bytes_mem m ->
  (is_zero bytes m a = true <-> forall i, 0 <= i < bytes -> m (a + i) = 0).
Proof.
  intros bytes m a Hb B. unfold is_zero. rewrite Z.eqb_eq, disj_all by (auto; lia).
  replace (8 * Z.of_nat (Z.to_nat ((bytes - 1) / 8)) + Z.of_nat (Z.to_nat ((bytes - 1) mod 8 + 1))) with bytes by lia. reflexivity.
Qed.
Theorem C42_is_allones_exact : forall bytes m a, 1 <= bytes -> bytes_mem m ->
  (is_allones bytes m a = true <-> forall i, 0 <= i < bytes -> m (a + i) = 255).
Proof.
  intros bytes m a Hb B. unfold is_allones. rewrite Z.eqb_eq, conj_all by (auto; lia).
  replace (8 * Z.of_nat (Z.to_nat ((bytes - 1) / 8)) + Z.of_nat (Z.to_nat ((bytes - 1) mod 8 + 1))) with bytes by lia. reflexivity.
Qed.
Example C42_case : is_zero 23 (fun x => if x =? 23 then 1 else 0) 0 = true /\ is_zero 23 (fun x => if x =? 22 then 128 else 0) 0 = false /\
  is_allones 23 (fun x => if x =? 23 then 1 else 255) 0 = true /\ is_allones 23 (fun x => if x =? 20 then 254 else 255) 0 = false.
Proof. repeat split. Qed.

Print Assumptions C24_freed_exactly_once_partial.
Print Assumptions C24_alterable_means_alone_partial.
Print Assumptions C24_counter_overflow_refuted.
Print Assumptions C25_space_sufficient.
Print Assumptions C25_repays_same_block.
Print Assumptions C25_granted_iff_in_range.
Print Assumptions C25_layout.
Print Assumptions C49_guard_accepts_itself.
Print Assumptions C49_guard_detects.
Print Assumptions C34_parts.
Print Assumptions C49_drowned_guard_rejected.
Print Assumptions C49_blank_guard_rejected.
Print Assumptions C44_parts_kept.
Print Assumptions C44_local_kept.
Print Assumptions C34_untagged_partial.
Print Assumptions C34_untagged_wide_partial.
Print Assumptions C34_set_ptr_keeps_tag_partial.
Print Assumptions C34_set_ptr_keeps_tag_wide_partial.
Print Assumptions C34_tag_lost_refuted.
Print Assumptions C34_set_tag_refuted.
Print Assumptions C35_pollute_xors_range_only.
Print Assumptions C35_pollute_key_is_mask.
Print Assumptions C35_pollute_key_is_random.
Print Assumptions C35_words_differ.
Print Assumptions C35_pollute_twice_restores.
Print Assumptions C35_zero_test_exact.
Print Assumptions C50_least_fitting_class.
Print Assumptions C42_is_zero_exact.
Print Assumptions C42_is_allones_exact.
Print Assumptions C49_smudged_guard_rejected.
Print Assumptions C49_setup_ends.
Print Assumptions C49_signature_refuted.

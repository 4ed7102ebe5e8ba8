(** * Stale: proofs. *)
From Verif Require Import Base Tag TagProofs Codec Gear GearBase GearSearch GearProofs GearMerge GearResize Tuple TupleProofs TupleSteps TupleView TupleOps TupleHist
  Hippeus HippeusProofs Scan Audit AuditProofs Image ImageProofs PropertiesTuple PropertiesImage Stale.
From Coq Require Import ZifyBool ZifyNat.
Ltac Zify.zify_post_hook ::= Z.div_mod_to_equations.

(** ** Entries at and above [cnt] are no part of the tuple *)
Section Above.
  Variables (s : st) (f : nat -> ent).
  Hypothesis E : forall k, (k < cnt s)%nat -> f k = idx s k.
  Let s' := with_idx s f.
  Lemma ab_live r : live s' r <-> live s r.
  Proof. destruct r as [k|j]; cbn [live]; [|reflexivity]. unfold s'. cbn [cnt idx with_idx]. split; intros [A B]; split; auto; rewrite E in * by assumption; assumption. Qed.
  Lemma ab_plen r : live s r -> plen s' r = plen s r.
  Proof.
    destruct r as [k|j]; intros L; [|reflexivity]. destruct L as [L _].
    unfold plen, rgenus, rrel, raddr, egenus. cbn [rown rrel]. unfold s'. cbn [idx with_idx dat pivot]. rewrite E by assumption. reflexivity.
  Qed.
  Lemma ab_len L k : (k < cnt s)%nat -> len s' L k = len s L k.
  Proof. intros Hk. unfold len, s'. cbn [idx with_idx]. rewrite E by assumption. reflexivity. Qed.
  Lemma ab_addr k : (k < cnt s)%nat -> addr s' k = addr s k.
  Proof. intros Hk. unfold addr, own, s'. cbn [idx with_idx pivot]. rewrite E by assumption. reflexivity. Qed.
  Lemma ab_nzh k : nzh s' k -> nzh s k /\ hole_begin s' k = hole_begin s k /\ hole_end s' k = hole_end s k.
  Proof.
    intros (A & B & C). unfold s' in A, B, C. cbn [cnt idx with_idx] in A, B, C. rewrite E in B, C by assumption.
    split; [split; [exact A|auto]|]. unfold hole_begin, hole_end. rewrite (ab_addr k A). unfold s'. cbn [idx with_idx]. rewrite E by assumption. split; reflexivity.
  Qed.
  Lemma ab_inv L : Inv s L -> Inv s' L.
  Proof.
    intros [[h1 h2 h3 h4 h5 h6 h7 h8 h9 h10] A B]. destruct h1. constructor; [constructor; auto| |].
    - constructor; auto.
    - intros x. replace (GearBase.cov s' L x) with (GearBase.cov s L x); [exact (h2 x)|]. unfold GearBase.cov. f_equal. apply sumn_ext. intros k Hk. symmetry. rewrite ab_addr, ab_len by exact Hk. reflexivity.
    - replace (total s' L) with (total s L); [exact h4|]. unfold total. f_equal. apply sumn_ext. intros k Hk. symmetry. apply ab_len. exact Hk.
    - transitivity (sumn (cnt s) (hcount s)); [|exact h5]. apply sumn_ext. intros k Hk. unfold hcount, s'. cbn [idx with_idx]. rewrite E by assumption. reflexivity.
    - transitivity (sumn (cnt s) (hvol s)); [|exact h6]. apply sumn_ext. intros k Hk. unfold hvol, s'. cbn [idx with_idx]. rewrite E by assumption. reflexivity.
    - intros k Hk. unfold s'. cbn [idx with_idx]. rewrite E by exact Hk. apply h7. exact Hk.
    - intros i j Hi Hj. destruct (ab_nzh i Hi) as (I1 & _ & I2). destruct (ab_nzh j Hj) as (J1 & J2 & _). rewrite I2, J2. apply A; assumption.
    - intros i Hi. destruct (ab_nzh i Hi) as (I1 & _ & I2). rewrite I2. apply B; assumption.
  Qed.
  Lemma ab_tinv : TInv s -> TInv s'.
  Proof.
    intros [I P S]. constructor.
    - apply Inv_Llive with (L := plen s); [|apply plen_nonneg|apply ab_inv; exact I]. intros r L. apply ab_plen. apply ab_live. exact L.
    - intros r L St N. apply ab_live in L. rewrite ab_plen by exact L. apply P; [exact L| |].
      + destruct r as [k|j]; [|exact St]. destruct L as [L _]. unfold stretchy_ref, rgenus, s' in *. cbn [idx with_idx] in St. rewrite E in St by assumption. exact St.
      + destruct r as [k|j]; [|exact N]. destruct L as [L _]. unfold rrel, s' in *. cbn [idx with_idx] in N. rewrite E in N by assumption. exact N.
    - exact S.
  Qed.
  Lemma ab_field r : field s' r = field s r.
  Proof.
    unfold field. destruct (liveb s r) eqn:L.
    - assert (L1 : live s r) by (apply liveb_iff; exact L). replace (liveb s' r) with true by (symmetry; apply liveb_iff; apply ab_live; exact L1).
      do 2 f_equal.
      + destruct r as [k|j]; [|reflexivity]. destruct L1 as [L1 _]. unfold rdesc, s'. cbn [idx with_idx]. rewrite E by assumption. reflexivity.
      + unfold value. rewrite (ab_plen r L1). destruct r as [k|j]; [|reflexivity]. destruct L1 as [L1 _].
        unfold rgenus, rrel, raddr. cbn [rown rrel]. unfold s'. cbn [idx with_idx pivot]. rewrite E by assumption. reflexivity.
    - destruct (liveb s' r) eqn:L'; [|reflexivity]. apply liveb_iff in L'. apply ab_live in L'. apply liveb_iff in L'. congruence.
  Qed.
  Lemma ab_lookup d : lookup_gid s' d = lookup_gid s d.
  Proof.
    unfold lookup_gid. change (cnt s') with (cnt s).
    assert (G : forall n, (n <= cnt s)%nat -> scan_down (fun e => gid e =? d) (idx s') n = scan_down (fun e => gid e =? d) (idx s) n).
    { induction n as [|n IH]; intros H; cbn [scan_down]; [reflexivity|]. unfold s' at 1. cbn [idx with_idx]. rewrite E by lia. rewrite IH by lia. reflexivity. }
    apply G. lia.
  Qed.
  Lemma ab_collect d : collect s' d = collect s d.
  Proof.
    unfold collect. change (cnt s') with (cnt s).
    assert (G : forall n, (n <= cnt s)%nat -> collect_from s' d n = collect_from s d n).
    { induction n as [|n IH]; intros H; cbn [collect_from]; [reflexivity|]. unfold s' at 1. cbn [idx with_idx]. rewrite E by lia. rewrite IH by lia. reflexivity. }
    apply G. lia.
  Qed.
End Above.

(** ** Removals write no entry above the highest one in use *)
Definition fr (n : nat) (s s' : st) : Prop := (forall j, (n <= j)%nat -> idx s' j = idx s j) /\ (cnt s' <= cnt s)%nat.
Lemma fr_trans n a b c : fr n a b -> fr n b c -> fr n a c.
Proof. intros [A1 A2] [B1 B2]. split; [|lia]. intros j Hj. rewrite B1, A1 by exact Hj. reflexivity. Qed.
Lemma fr_ent n s k e : (k < n)%nat -> fr n s (set_ent s k e).
Proof. intros Hk. split; [|cbn; lia]. intros j Hj. unfold set_ent. cbn [idx with_idx]. unfold fupd. replace (Nat.eqb j k) with false by (symmetry; apply Nat.eqb_neq; lia). reflexivity. Qed.
Lemma fr_trim : forall n s, (n <= cnt s)%nat -> idx (trim_from n s) = idx s /\ (cnt (trim_from n s) <= cnt s)%nat.
Proof.
  induction n as [|n IH]; intros s H; cbn [trim_from]; [split; [reflexivity|lia]|]. cbv zeta.
  set (s1 := with_cnt (with_jc s (jc s - 1)) n). assert (I1 : idx s1 = idx s) by reflexivity. assert (C1 : cnt s1 = n) by reflexivity.
  assert (B : idx s1 = idx s /\ (cnt s1 <= cnt s)%nat) by (split; [reflexivity|rewrite C1; lia]).
  destruct n as [|p]; [exact B|].
  destruct (negb (is_hole (idx s1 p))); [exact B|].
  destruct (hunits (idx s1 p) =? 0).
  - destruct (IH s1 ltac:(lia)) as [X Y]. split; [congruence|lia].
  - destruct (negb (hole_end s1 p =? tail s1)); [exact B|].
    destruct (IH (with_tail (with_jv s1 (jv s1 - hunits (idx s1 p))) (tail s1 - hunits (idx s1 p)))) as [X Y].
    + change (S p <= cnt s1)%nat. lia.
    + change (cnt (with_tail (with_jv s1 (jv s1 - hunits (idx s1 p))) (tail s1 - hunits (idx s1 p)))) with (cnt s1) in Y. split; [rewrite X; exact I1|]. lia.
Qed.
Lemma fr_trim_hole n s : fr n s (trim_hole s).
Proof. unfold trim_hole. destruct (fr_trim (cnt s) s (Nat.le_refl _)) as [A B]. split; [|exact B]. intros j _. rewrite A. reflexivity. Qed.
Lemma fr_purge_trim n s k : (k < n)%nat -> fr n s (purge_trim s k).
Proof.
  intros Hk. unfold purge_trim. cbv zeta. assert (A : fr n s (purge s k)) by (apply fr_ent; exact Hk).
  destruct (is_begin (purge s k) k); [|exact A]. eapply fr_trans; [exact A|apply fr_trim_hole].
Qed.
Lemma fr_merge n s f g : (f < n)%nat -> (g < n)%nat -> fr n s (snd (merge_holes s f g)) /\ (fst (merge_holes s f g) < n)%nat.
Proof.
  intros Hf Hg. unfold merge_holes. cbv zeta. destruct (negb (is_begin s f)); cbn [fst snd]; (split; [|assumption]).
  - eapply fr_trans; [apply (fr_ent n s f); exact Hf|apply fr_purge_trim; exact Hg].
  - eapply fr_trans; [apply (fr_ent n s g); exact Hg|]. eapply fr_trans; [apply (fr_ent n _ f purged); exact Hf|apply fr_trim_hole].
Qed.
Lemma adj_below s b e m : forall n left bf af rb ra, adj_loop s b e n left bf af = Some (rb, ra) -> (n <= m)%nat ->
  (forall x, bf = Some x -> (x < m)%nat) -> (forall x, af = Some x -> (x < m)%nat) ->
  (forall x, rb = Some x -> (x < m)%nat) /\ (forall x, ra = Some x -> (x < m)%nat).
Proof.
  induction n as [|n IH]; intros left bf af rb ra; cbn [adj_loop]; cbv zeta; intros H Hn Hb Ha; destruct (left <=? 0); try discriminate;
    try (injection H as <- <-; split; assumption).
  destruct (negb (is_hole (idx s n))); [eapply IH; eauto; lia|].
  destruct (negb (hunits (idx s n) =? 0)); [|eapply IH; eauto; lia].
  eapply IH; [exact H|lia| |].
  - intros x. destruct (hole_end s n =? b); [intros X; injection X as <-; lia|apply Hb].
  - intros x. destruct (e =? hole_begin s n); [intros X; injection X as <-; lia|apply Ha].
Qed.
Lemma fr_release n s k u s' : (k < n)%nat -> (cnt s <= n)%nat -> release_loose s k u = Ok tt s' -> fr n s s'.
Proof.
  intros Hk Hc. unfold release_loose. cbv zeta. destruct (u =? 0).
  - intros H. injection H as <-. apply (fr_purge_trim n (with_jc s (jc s + 1)) k Hk).
  - set (s1 := with_jv (set_ent (with_jc s (jc s + 1)) k (set_units (idx (with_jc s (jc s + 1)) k) u)) (jv (with_jc s (jc s + 1)) + u)).
    assert (F1 : fr n s s1) by exact (fr_ent n (with_jc s (jc s + 1)) k _ Hk).
    destruct (lookup_adjacent s1 (hole_begin s1 k) (hole_end s1 k)) as [[bf af]|] eqn:E; [|discriminate].
    apply (adj_below s1 _ _ n) in E; [|exact Hc|discriminate|discriminate]. destruct E as [Eb Ea].
    destruct (match bf with Some b => merge_holes s1 b k | None => (k, s1) end) as [k2 s2] eqn:E2.
    assert (F2 : fr n s s2 /\ (k2 < n)%nat).
    { destruct bf as [b|]; [|injection E2 as <- <-; split; assumption].
      destruct (fr_merge n s1 b k (Eb b eq_refl) Hk) as [G1 G2]. rewrite E2 in G1, G2. cbn [fst snd] in *. split; [|exact G2]. eapply fr_trans; eassumption. }
    destruct F2 as [F2 K2].
    destruct (match af with Some a => merge_holes s2 k2 a | None => (k2, s2) end) as [k3 s3] eqn:E3.
    assert (F3 : fr n s s3 /\ (k3 < n)%nat).
    { destruct af as [a|]; [|injection E3 as <- <-; split; assumption].
      destruct (fr_merge n s2 k2 a K2 (Ea a eq_refl)) as [G1 G2]. rewrite E3 in G1, G2. cbn [fst snd] in *. split; [|exact G2]. eapply fr_trans; eassumption. }
    destruct F3 as [F3 K3]. destruct (negb (hole_end s3 k3 =? tail s3)); intros H; injection H as <-; [exact F3|].
    eapply fr_trans; [exact F3|]. exact (fr_purge_trim n (with_jv (with_tail s3 (tail s3 - hunits (idx s3 k3))) (jv s3 - hunits (idx s3 k3))) k3 K3).
Qed.

(** ** What is left of a view: the entries it counts on are there, those given up are holes, and
    its header is as it was *)
Record left_of (n : nat) (h s : st) : Prop := {
  j_cnt : (cnt s <= n)%nat;
  j_top : u16 (rel (idx s n)) = u16 (rel (idx h n)) /\ u16 (gid (idx s n)) = u16 (gid (idx h n));
  j_holes : forall k, (cnt s <= k < n)%nat -> is_hole (idx s k) = true;
  j_pivot : pivot s = pivot h; j_pp : pp s = pp h; j_nslots : nslots s = nslots h; j_soff : soff s = soff h; j_stype : stype s = stype h
}.
Lemma left_erase n h s k s' : TInv s -> live s (RL k) -> wide_hole s (addr s k) (plen s (RL k)) = false ->
  erase_loose s k = Ok tt s' -> left_of n h s -> left_of n h s'.
Proof.
  intros T Hl Hc E [J1 J2 J3 c1 c2 c3 c4 c5]. apply (wide_hole_cap s (plen s) _ _ (v_acc _ _ (t_inv _ T))) in Hc.
  destruct (release_loose_full s (plen s) k (t_inv _ T) Hl Hc) as (s2 & E2 & _ & [N Hh] & S & _).
  assert (s2 = s') by (unfold erase_loose in E; congruence). subst s2. destruct Hl as [Hk Hn].
  destruct (fr_release n s k (plen s (RL k)) s' ltac:(lia) J1 E) as [F1 F2]. constructor.
  - lia.
  - rewrite F1 by lia. exact J2.
  - intros i Hi. destruct (Nat.eq_dec i k) as [->|Ni]; [exact Hh|].
    assert (X : ~ only (RL k) (RL i)) by (unfold only; congruence).
    destruct (Nat.lt_ge_cases i (cnt s)) as [Lt|Ge]; [|apply (f_hole _ _ _ S i X); apply J3; lia].
    destruct (is_hole (idx s i)) eqn:Eh; [apply (f_hole _ _ _ S i X); exact Eh|].
    assert (L : live s (RL i)) by (split; assumption). apply (f_live _ _ _ S (RL i) X) in L. destruct L as [L _]. lia.
  - rewrite (q_pivot _ _ (f_cfg _ _ _ S)). exact c1.
  - rewrite (q_pp _ _ (f_cfg _ _ _ S)). exact c2.
  - rewrite (q_nslots _ _ (f_cfg _ _ _ S)). exact c3.
  - rewrite (q_soff _ _ (f_cfg _ _ _ S)). exact c4.
  - rewrite (q_stype _ _ (f_cfg _ _ _ S)). exact c5.
Qed.
Lemma left_dat n h s d : left_of n h s -> left_of n h (with_dat s d).
Proof. intros []. constructor; assumption. Qed.
Lemma left_write n h s k v : (k < cnt s)%nat -> left_of n h s -> left_of n h (write_fixed s k v).
Proof.
  intros Hk J. unfold write_fixed. destruct (is_inplaced_genus (egenus (idx s k))); [|apply left_dat; exact J].
  destruct J as [J1 J2 J3 c1 c2 c3 c4 c5]. constructor; try assumption.
  - unfold set_ent. cbn [idx with_idx]. unfold fupd. replace (Nat.eqb n k) with false by (symmetry; apply Nat.eqb_neq; lia). exact J2.
  - intros i Hi. unfold set_ent in *. cbn [idx cnt with_idx] in *. unfold fupd. replace (Nat.eqb i k) with false by (symmetry; apply Nat.eqb_neq; lia). apply J3. exact Hi.
Qed.
Lemma left_erase_all nn h desc : real_desc desc -> forall n s s', TInv s ->
  (forall i, (i < n)%nat -> live s (RL i) \/ is_hole (idx s i) = true) ->
  calm_all_from s desc n = true -> erase_all_from s desc n = Ok tt s' -> left_of nn h s -> left_of nn h s'.
Proof.
  intros Hd. induction n as [|n IH]; intros s s' T Hlo Hc E J; cbn [erase_all_from calm_all_from] in *; [congruence|].
  destruct (gid (idx s n) =? desc) eqn:Eg.
  - apply andb_prop in Hc. destruct Hc as [Hc1 Hc2]. unfold calm_free in Hc1. apply Bool.negb_true_iff in Hc1.
    assert (Hl : live s (RL n)).
    { destruct (Hlo n ltac:(lia)) as [A|A]; [exact A|]. rewrite (real_gid (idx s n) desc Hd) in A by lia. discriminate. }
    destruct (erase_loose_spec s n T Hl Hc1) as (s1 & E1 & T1 & Ef1 & Hh1).
    pose proof (left_erase nn h s n s1 T Hl Hc1 E1 J) as J1.
    rewrite E1 in *. cbn [bind] in E. apply (IH s1 s' T1); try assumption.
    intros i Hi. destruct (Hlo i ltac:(lia)) as [A|A].
    + left. pose proof (e_frame _ _ _ _ Ef1 (RL i) ltac:(intros X; injection X; lia)) as F.
      rewrite (field_live s) in F by assumption. apply liveb_iff. unfold field in F.
      destruct (liveb s1 (RL i)); [reflexivity|discriminate].
    + right. apply Hh1; [lia|exact A].
  - apply (IH s s' T); try assumption. intros i Hi. apply Hlo. lia.
Qed.

Lemma left_step multi nn h s o s' : TInv s -> valid multi s o -> calm s o = true -> tame s o = true ->
  run1 asis s o = Ok tt s' -> left_of nn h s -> left_of nn h s'.
Proof.
  intros T V C Tm. destruct o as [desc disc v|desc|desc disc v|desc|k|j disc v|j]; cbn [run1 tame calm valid] in *.
  - destruct V as (Hd & _ & Hw). destruct (fixed_genus (descriptor2genus desc)) eqn:Fx.
    + unfold assign_fixed, stores in *. rewrite Fx in C. destruct (lookup_gid s desc) as [k|] eqn:Lk.
      * destruct (lookup_some _ _ _ Hd Lk) as [Hl Hg]. destruct (negb disc && v_empty v); cbn [negb orb] in C.
        -- intros E J. assert (Ep : loose_units (descriptor2genus desc) = plen s (RL k)).
           { unfold plen. cbn [rgenus]. unfold egenus. rewrite Hg, Fx. reflexivity. }
           rewrite Ep in E. unfold void in E. destruct (release_loose s k (plen s (RL k))) as [[] s1|s1|] eqn:E1; cbn [bind] in E; try discriminate.
           assert (s1 = s') by congruence. subst s1. unfold calm_free in C. apply Bool.negb_true_iff in C. exact (left_erase nn h s k s' T Hl C E1 J).
        -- unfold void. cbn [bind]. intros E J. assert (write_fixed s k (pay v) = s') by congruence. subst s'. apply left_write; [apply Hl|exact J].
      * rewrite Tm. unfold void. cbn [bind]. intros E J. congruence.
    + unfold assign_stretchy. destruct (lookup_gid s desc) as [k|] eqn:Lk.
      * destruct (lookup_some _ _ _ Hd Lk) as [Hl Hg].
        assert (Hst : stretchy_ref s (RL k) = true) by (unfold stretchy_ref; cbn [rgenus]; unfold egenus; rewrite Hg, Fx; reflexivity).
        unfold assign_ref. cbv zeta. destruct (rrel s (RL k) =? 0) eqn:Er; cbn [negb].
        -- assert (Hp : plen s (RL k) = 0) by (unfold plen; cbn [rgenus]; unfold egenus; rewrite Hg, Fx, Er; reflexivity).
           rewrite Hp in Tm. replace (needed disc v =? 0) with true by (destruct (needed disc v =? 0); [reflexivity|discriminate Tm]). intros E J. congruence.
        -- assert (Hp : brutto (rgenus s (RL k)) (dat s (raddr s (RL k))) = plen s (RL k)).
           { unfold plen at 1. cbn [rgenus]. unfold egenus. rewrite Hg, Fx, Er. reflexivity. }
           rewrite Hp. destruct (needed disc v =? plen s (RL k)) eqn:E1.
           ++ intros E J. assert (X : write_units s (raddr s (RL k)) (pay v) = s') by congruence. rewrite <- X. apply left_dat. exact J.
           ++ cbn [orb] in Tm. rewrite Tm. intros E J. apply (left_erase nn h s k s' T Hl); [|exact E|exact J].
              unfold calm_ref, roomy in C. apply andb_prop in C. destruct C as [C _]. apply andb_prop in C. destruct C as [C _].
              rewrite Er, Tm, E1 in C. cbn [orb] in C. apply Bool.negb_true_iff in C. exact C.
      * rewrite Tm. intros E J. congruence.
  - destruct V as (Hd & _). destruct (lookup_gid s desc) as [k|] eqn:Lk; [|intros E J; congruence].
    destruct (lookup_some _ _ _ Hd Lk) as [Hl Hg]. intros E J. unfold calm_free in C. apply Bool.negb_true_iff in C. exact (left_erase nn h s k s' T Hl C E J).
  - unfold append_loose. cbv zeta. rewrite Tm. unfold void. cbn [bind]. intros E J. congruence.
  - destruct V as (Hd & _). unfold erase_all. destruct (lookup_gid s desc) as [k|] eqn:Lk; [|intros E J; congruence].
    destruct (lookup_some _ _ _ Hd Lk) as [Hl Hg]. intros E J. apply (left_erase_all nn h desc Hd (S k) s s' T); try assumption.
    intros i Hi. destruct Hl as [Hl _]. destruct (is_hole (idx s i)) eqn:Eh; [right; reflexivity|left; split; [lia|exact Eh]].
  - destruct V as (Hl & _). intros E J. unfold calm_free in C. apply Bool.negb_true_iff in C. exact (left_erase nn h s k s' T Hl C E J).
  - destruct V as (Hj & _). unfold assign_ref. cbv zeta. destruct (rrel s (RP j) =? 0) eqn:Er; cbn [negb].
    + assert (Hp : plen s (RP j) = 0) by (unfold plen; rewrite Er; reflexivity). rewrite Hp in Tm. rewrite Tm. intros E J. congruence.
    + assert (Hp : brutto (rgenus s (RP j)) (dat s (raddr s (RP j))) = plen s (RP j)) by (unfold plen at 1; rewrite Er; reflexivity).
      rewrite Hp, Tm. intros E J. assert (X : write_units s (raddr s (RP j)) (pay v) = s') by congruence. rewrite <- X. apply left_dat. exact J.
  - unfold erase_slot. destruct (rrel s (RP j) =? 0) eqn:Er; [intros E J; congruence|].
    pose proof (t_pos _ T (RP j) V eq_refl ltac:(lia)) as P. lia.
Qed.

Lemma left_run multi nn h l : forall s, TInv s -> uniq multi s -> calm_run multi s l -> tame_run s l = true -> left_of nn h s ->
  exists outs s', run asis s l = Some (outs, s') /\ TInv s' /\ uniq multi s' /\ left_of nn h s'.
Proof.
  induction l as [|o l IH]; intros s T U C Tm J; cbn [run calm_run tame_run] in *.
  - exists [], s. auto.
  - destruct C as (V & Cm & C). apply andb_prop in Tm. destruct Tm as [Tm1 Tm]. pose proof (step multi s o T U V Cm) as St.
    destruct (run1 asis s o) as [[] s1|s1|] eqn:E; [| |contradiction].
    + destruct St as [T1 _ _ _ U1 _].
      destruct (IH s1 T1 U1 C Tm (left_step multi nn h s o s1 T V Cm Tm1 E J)) as (outs & s' & -> & R). exists (true :: outs), s'. split; [reflexivity|exact R].
    + subst s1. destruct (IH s T U C Tm J) as (outs & s' & -> & R). exists (false :: outs), s'. split; [reflexivity|exact R].
Qed.

(** ** Reading through a header that counts more entries than there are: the rest are holes *)
Lemma hole_range e : is_hole e = true -> 0 <= gid e < 65536.
Proof. unfold is_hole. rewrite descriptor2genus_arith. change g_hole with 31. lia. Qed.
Lemma memory_entry s k : memory s (pivot s - 1 - Z.of_nat k) = u16 (rel (idx s k)) + 65536 * u16 (gid (idx s k)).
Proof. unfold memory. replace (pivot s - 1 - Z.of_nat k <? pivot s) with true by lia. replace (Z.to_nat (pivot s - 1 - (pivot s - 1 - Z.of_nat k))) with k by lia. reflexivity. Qed.
Lemma u16_id x : 0 <= x < 65536 -> u16 x = x.
Proof. intros H. unfold u16. change (2 ^ 16) with 65536. apply Z.mod_small. exact H. Qed.
Lemma memory_agrees s : TInv s -> forall x, head s <= x < tail s -> memory s x = word s x.
Proof.
  intros T x H. pose proof (v_acc _ _ (t_inv _ T)) as acc. unfold memory. destruct (x <? pivot s) eqn:E; [|reflexivity].
  unfold word. replace ((head s <=? x) && (x <? pivot s)) with true by lia. unfold head in H.
  destruct (i_ent _ _ _ _ _ _ acc (Z.to_nat (pivot s - 1 - x)) ltac:(lia)) as (R1 & R2 & _). cbv zeta. rewrite !u16_id by assumption. reflexivity.
Qed.
Lemma readers_left s A ptr n : TInv s -> distinct_slots s ->
  ro_index (held_mem A s) ptr = Z.of_nat n -> ro_pivot (held_mem A s) ptr = A + 4 * pivot s ->
  (cnt s <= n)%nat -> (forall k, (cnt s <= k < n)%nat -> is_hole (idx s k) = true) ->
  (forall k, ro_loose (held_mem A s) ptr k = as_u32 (field s (RL k))) /\
  (forall j, (j < nslots s)%nat -> ro_slot (held_mem A s) ptr (stype s j) (4 * soff s j) = map u32 (value s (RP j))).
Proof.
  intros T DS HI HP Hn Hh. pose proof (v_acc _ _ (t_inv _ T)) as acc. pose proof (seen_cfg s T) as C.
  assert (W : forall a m, 0 < m -> base s <= a -> a + m <= tail s ->
    map (fun i => word_at (held_mem A s) (A + 4 * a + 4 * Z.of_nat i)) (seq 0 (Z.to_nat m)) = map u32 (read_units s a m)).
  { intros a m Hm H1 H2. unfold read_units. rewrite map_map. apply map_ext_in. intros i I. apply in_seq in I.
    replace (A + 4 * a + 4 * Z.of_nat i) with (A + 4 * (a + Z.of_nat i)) by lia. unfold held_mem. rewrite word_at_bytes.
    unfold base in *. rewrite (memory_agrees s T) by (unfold head; lia). rewrite word_data by (unfold base; lia). reflexivity. }
  split.
  - intros k. unfold ro_loose. rewrite HP, HI. unfold field. cbn [liveb].
    destruct (Z.of_nat k <? Z.of_nat n) eqn:En.
    2:{ replace (Nat.ltb k (cnt s)) with false by (symmetry; apply Nat.ltb_ge; lia). reflexivity. }
    destruct (Nat.ltb k (cnt s)) eqn:Ek; cbn [andb].
    2:{ apply Nat.ltb_ge in Ek. pose proof (Hh k ltac:(lia)) as H1. pose proof (hole_range _ H1) as H3.
        replace (A + 4 * pivot s - 4 * (Z.of_nat k + 1) + 2) with (A + 4 * (pivot s - 1 - Z.of_nat k) + 2) by lia.
        unfold held_mem. rewrite half_hi, memory_entry. rewrite (u16_id (gid (idx s k)) H3). replace ((u16 (rel (idx s k)) + 65536 * gid (idx s k)) / 65536 mod 65536) with (gid (idx s k)) by (unfold u16; change (2 ^ 16) with 65536; lia).
        unfold is_hole in H1. rewrite H1. reflexivity. }
    apply Nat.ltb_lt in Ek. rename Ek into Hk.
    pose proof (seen_entry A s (memory s) T (memory_agrees s T) k Hk) as [E1 E2]. unfold e_rel, e_desc, entry_addr in E1, E2. unfold held_mem in *. rewrite E1, E2.
    change (descriptor2genus (gid (idx s k)) =? g_hole) with (is_hole (idx s k)). destruct (is_hole (idx s k)) eqn:EH; [reflexivity|]. cbn [negb as_u32 rdesc].
    fold (egenus (idx s k)). do 2 f_equal. unfold value. cbn [rgenus rrel]. destruct (is_inplaced_genus (egenus (idx s k))) eqn:EI.
    + cbn [map]. f_equal. destruct (i_ent _ _ _ _ _ _ acc k Hk) as (R1 & _). unfold u32. rewrite Z.mod_small; [reflexivity|]. change (2 ^ 32) with 4294967296. lia.
    + assert (EA : A + 4 * pivot s - 4 * (Z.of_nat k + 1) + 4 * rel (idx s k) = A + 4 * raddr s (RL k)) by (unfold raddr; cbn [rown rrel]; unfold own; lia).
      rewrite EA.
      assert (EN : (if egenus (idx s k) >? g_property then loose_units (egenus (idx s k)) else if rel (idx s k) =? 0 then 0 else brutto_at (bytes_of A (memory s)) (egenus (idx s k)) (A + 4 * raddr s (RL k))) = plen s (RL k)).
      { pose proof (seen_units A s (memory s) T (memory_agrees s T) k Hk) as U. unfold e_units in U. rewrite (seen_genus A s (memory s) T (memory_agrees s T) k Hk), (seen_payload A s (memory s) T (memory_agrees s T) k Hk), EI in U.
        unfold len in U. rewrite EH in U. change (egenus (idx s k) =? g_hole) with (is_hole (idx s k)) in U. rewrite EH in U.
        unfold e_rel, entry_addr in U. rewrite E1 in U. exact U. }
      rewrite EN. pose proof (plen_nonneg s (RL k)). destruct (Z.eq_dec (plen s (RL k)) 0) as [Z0|NZ]; [rewrite Z0; reflexivity|].
      assert (L : live s (RL k)) by (split; assumption). assert (Pos : 0 < plen s (RL k)) by lia. destruct (live_bounds s (plen s) acc (RL k) L Pos).
      apply W; assumption.
  - intros j Hj. unfold ro_slot. rewrite HP.
    pose proof (seen_slot A s (memory s) T DS (memory_agrees s T) j Hj) as E1. unfold t_rel in E1. cbn [snd] in E1. unfold held_mem in *. rewrite E1.
    pose proof (seen_slot_units A s (memory s) T DS (memory_agrees s T) j Hj) as U. unfold t_units, t_payload, t_rel in U. cbn [fst snd] in U. rewrite E1 in U.
    pose proof (t_slot _ T j Hj). replace (stype s j >? g_property) with false in U by (change g_property with 3; lia). rewrite U.
    unfold value. pose proof (plen_nonneg s (RP j)). destruct (Z.eq_dec (plen s (RP j)) 0) as [Z0|NZ]; [rewrite Z0; reflexivity|].
    assert (Pos : 0 < plen s (RP j)) by lia. destruct (live_bounds s (plen s) acc (RP j) Hj Pos).
    replace (A + 4 * pivot s + 4 * soff s j + 4 * pre s j) with (A + 4 * raddr s (RP j)) by (unfold raddr; cbn [rown rrel]; lia).
    apply W; assumption.
Qed.

(** ** The header *)
Lemma take_below s k : (k < cnt s)%nat -> idx (take s) k = idx s k.
Proof. intros H. unfold take, set_ent. cbn [idx with_idx]. apply fupd_other. lia. Qed.
Lemma take_at s : idx (take s) (cnt s) = mkE (header s mod 65536) (header s / 65536).
Proof. unfold take, set_ent. cbn [idx with_idx]. apply fupd_same. Qed.
Lemma take_inv s : TInv s -> TInv (take s).
Proof. intros T. unfold take, set_ent. apply ab_tinv; [|exact T]. intros k Hk. apply fupd_other. lia. Qed.
Lemma take_field s r : field (take s) r = field s r.
Proof. unfold take, set_ent. apply ab_field. intros k Hk. apply fupd_other. lia. Qed.
Lemma take_lookup s d : lookup_gid (take s) d = lookup_gid s d.
Proof. unfold take, set_ent. apply ab_lookup. intros k Hk. apply fupd_other. lia. Qed.
Lemma take_collect s d : collect (take s) d = collect s d.
Proof. unfold take, set_ent. apply ab_collect. intros k Hk. apply fupd_other. lia. Qed.
Lemma take_live s r : live (take s) r <-> live s r.
Proof. unfold take, set_ent. apply ab_live. intros k Hk. apply fupd_other. lia. Qed.
Lemma take_view s d : real_desc d -> view (take s) d = view s d.
Proof.
  intros Hd. unfold view. rewrite take_collect. apply map_ext_in. intros k Hk.
  pose proof (collect_live s d k Hd Hk) as L.
  pose proof (take_field s (RL k)) as F. rewrite (field_live s (RL k) L) in F. rewrite (field_live (take s) (RL k)) in F by (apply take_live; exact L). congruence.
Qed.
Lemma left_take s : left_of (cnt s) (take s) (take s).
Proof. constructor; try reflexivity; [split; reflexivity|]. intros k Hk. change (cnt (take s)) with (cnt s) in Hk. lia. Qed.
Lemma take_uniq multi s : uniq multi s -> uniq multi (take s).
Proof. intros U d Hd Hm. rewrite take_view by exact Hd. apply U; assumption. Qed.
Lemma take_get multi s k : TInv s -> single_key multi s k -> get (take s) k = get s k.
Proof.
  destruct k as [d|j]; cbn [single_key get]; [|intros; reflexivity]. intros T [Hd _]. pose proof (take_inv s T). rewrite !get_loose_view by assumption. rewrite take_view by exact Hd. reflexivity.
Qed.
Section Header.
  Variables (A : Z) (s s' : st).
  Hypothesis T : TInv s.
  Hypothesis Few : Z.of_nat (cnt s) <= max_fields.
  Hypothesis J : left_of (cnt s) (take s) s'.
  Let m := held_mem A s'.
  Let ptr := taken A s.
  Lemma held_header : half m ptr = tail s - head s + 1 /\ half m (ptr + 2) = 8 * Z.of_nat (cnt s) + (if pp s >? 0 then 2 else 0).
  Proof.
    pose proof (seen_cfg s T) as C. change max_fields with 8191 in Few. unfold m, ptr, taken, held_mem, asis_ptr.
    assert (EP : pivot s' = pivot s) by exact (j_pivot _ _ _ J).
    replace (head s - 1) with (pivot s' - 1 - Z.of_nat (cnt s)) by (unfold head; lia).
    destruct (j_top _ _ _ J) as [J1 J2]. rewrite half_lo, half_hi, memory_entry, J1, J2, take_at. cbn [rel gid].
    unfold header, looseitems_flags. rewrite Z.shiftl_mul_pow2 by lia. unfold u16. change (2 ^ 16) with 65536. change (2 ^ 3) with 8.
    unfold head, base in *. destruct (pp s >? 0); lia.
  Qed.
  Lemma held_units : ro_units m ptr = tail s - head s + 1.
  Proof. apply held_header. Qed.
  Lemma held_index : ro_index m ptr = Z.of_nat (cnt s).
  Proof. unfold ro_index. rewrite (proj2 held_header). rewrite Z.shiftr_div_pow2 by lia. change (2 ^ 3) with 8. destruct (pp s >? 0); lia. Qed.
  Lemma held_flags : ro_sorted m ptr = false /\ ro_preplaced m ptr = (pp s >? 0).
  Proof.
    unfold ro_sorted, ro_preplaced. rewrite (proj2 held_header). pose proof (land2 A s (Z.of_nat (cnt s)) ltac:(lia)) as (L1 & L2 & L3 & L4).
    destruct (pp s >? 0); [rewrite L1, L2|rewrite Z.add_0_r, L3, L4]; split; reflexivity.
  Qed.
  Lemma held_pivot : ro_pivot m ptr = A + 4 * pivot s'.
  Proof. unfold ro_pivot. rewrite held_index, (j_pivot _ _ _ J). unfold ptr, taken, asis_ptr, head. change (pivot (take s)) with (pivot s). lia. Qed.
  Lemma held_end : ro_end m ptr = A + 4 * tail s.
  Proof. unfold ro_end. rewrite held_units. unfold ptr, taken, asis_ptr. lia. Qed.
  Lemma held_readers : TInv s' -> distinct_slots s ->
    (forall k, ro_loose m ptr k = as_u32 (field s' (RL k))) /\
    (forall j, (j < nslots s)%nat -> ro_slot m ptr (stype s j) (4 * soff s j) = map u32 (value s' (RP j))).
  Proof.
    intros T' DS. pose proof J as [j1 j2 j3 c1 c2 c3 c4 c5].
    assert (DS' : distinct_slots s'). { unfold distinct_slots. rewrite c3, c4. exact DS. }
    destruct (readers_left s' A ptr (cnt s) T' DS' held_index held_pivot j1 j3) as [R1 R2]. split; [exact R1|].
    intros j Hj. specialize (R2 j). rewrite c3, c4, c5 in R2. exact (R2 Hj).
  Qed.
  Lemma held_accepted schema : TInv s' -> distinct_slots s -> schema_of s' schema -> cnt s' = cnt s -> tail s' = tail s ->
    Z.of_nat (cnt s) + Z.of_nat (nslots s) <= max_fields -> tail s - head s + 1 <= 65534 -> ptr <> 0 ->
    snd (ro_audit m ptr (4 * ro_units m ptr) schema) = Good (jc s', jv s').
  Proof.
    intros T' DS SO Ec Et Few2 Big NN. pose proof (seen_cfg s T) as C.
    assert (DS' : distinct_slots s'). { unfold distinct_slots. rewrite (j_nslots _ _ _ J), (j_soff _ _ _ J). exact DS. }
    assert (L : exists t, lite_checkup m ptr (4 * ro_units m ptr) = (t, Good tt)).
    { unfold lite_checkup. rewrite held_index, held_pivot, held_end, held_units, (j_pivot _ _ _ J). change (pivot (take s)) with (pivot s).
      change max_tuple_bytes_netto with 262136. change max_fields with 8191 in *.
      replace (ptr =? 0) with false by lia. unfold head, base in *.
      replace (4 * (tail s - (pivot s - Z.of_nat (cnt s)) + 1) <? 4) with false by lia.
      replace (4 * (tail s - (pivot s - Z.of_nat (cnt s)) + 1) >? 262136) with false by lia.
      replace (negb ((4 * (tail s - (pivot s - Z.of_nat (cnt s)) + 1)) mod 4 =? 0)) with false by lia. rewrite Z.eqb_refl. cbn [negb after fst snd].
      replace (Z.of_nat (cnt s) >? 8191) with false by lia. replace (A + 4 * pivot s >? A + 4 * tail s) with false by lia.
      eexists. reflexivity. }
    unfold ro_audit. destruct L as (t & E). rewrite E. cbn [bindc].
    destruct held_flags as [F1 F2]. rewrite held_pivot, held_index, held_end, F1, F2, Nat2Z.id.
    assert (Few3 : Z.of_nat (cnt s') + Z.of_nat (nslots s') <= max_fields) by (rewrite Ec, (j_nslots _ _ _ J); exact Few2).
    destruct (accepted A s' (memory s') schema T' DS' (memory_agrees s' T') SO Few3 false) as (t2 & E2).
    rewrite Ec, Et, (j_pp _ _ _ J) in E2. change (pp (take s)) with (pp s) in E2. unfold m, held_mem. rewrite E2. reflexivity.
  Qed.
End Header.
Lemma same_as_cnt A s s' : left_of (cnt s) (take s) s' -> same_as A s' (taken A s) = Nat.eqb (cnt s') (cnt s).
Proof.
  intros J. pose proof (j_pivot _ _ _ J) as E. change (pivot (take s)) with (pivot s) in E. pose proof (j_cnt _ _ _ J). unfold same_as, taken, asis_ptr, head. rewrite E.
  destruct (Nat.eqb (cnt s') (cnt s)) eqn:B; [apply Nat.eqb_eq in B|apply Nat.eqb_neq in B]; lia.
Qed.

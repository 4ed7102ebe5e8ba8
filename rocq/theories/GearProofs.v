(** * GearProofs: the allocator keeps its invariant (proofs). *)
From Verif Require Import Base Tag TagProofs Gear GearBase GearSearch.
From Coq Require Import ZifyBool ZifyNat.
Ltac Zify.zify_post_hook ::= Z.div_mod_to_equations.

(** ** What an operation leaves alone *)
Record cfg_eq (s s' : st) : Prop := {
  q_pivot : pivot s' = pivot s; q_end : end_ s' = end_ s; q_pp : pp s' = pp s;
  q_nslots : nslots s' = nslots s; q_soff : soff s' = soff s; q_stype : stype s' = stype s;
  q_dat : dat s' = dat s
}.
(** [same s s' X]: same configuration and data; every live reference outside [X] stays live and
    keeps its descriptor and offset, and no other reference outside [X] becomes live. *)
Record same (s s' : st) (X : ref -> Prop) : Prop := {
  f_cfg : cfg_eq s s';
  f_live : forall r, ~ X r -> (live s r <-> live s' r);
  f_ent : forall k, ~ X (RL k) -> live s (RL k) -> idx s' k = idx s k;
  f_pre : forall j, ~ X (RP j) -> pre s' j = pre s j;
  f_hole : forall k, ~ X (RL k) -> is_hole (idx s k) = true -> is_hole (idx s' k) = true
}.
Definition none (r : ref) : Prop := False.
Definition only (r : ref) : ref -> Prop := fun r' => r' = r.

Lemma cfg_eq_refl s : cfg_eq s s. Proof. constructor; reflexivity. Qed.
Lemma cfg_eq_trans a b c : cfg_eq a b -> cfg_eq b c -> cfg_eq a c.
Proof. intros [] []. constructor; congruence. Qed.
Lemma same_refl s X : same s s X.
Proof. constructor; auto; [apply cfg_eq_refl|tauto]. Qed.
Lemma same_trans a b c X : same a b X -> same b c X -> same a c X.
Proof.
  intros [A1 A2 A3 A4 A5] [B1 B2 B3 B4 B5]. constructor; [| | | |auto].
  - eapply cfg_eq_trans; eassumption.
  - intros r N. rewrite (A2 r N). apply B2; assumption.
  - intros k N Hl. rewrite B3; [apply A3; assumption|assumption|apply A2; assumption].
  - intros j N. rewrite B4, A4 by assumption. reflexivity.
Qed.
Lemma same_weaken a b (X Y : ref -> Prop) : same a b X -> (forall r, X r -> Y r) -> same a b Y.
Proof.
  intros [A1 A2 A3 A4 A5] HXY. constructor; auto.
  all: intros; (apply A2 || apply A3 || apply A4 || apply A5); auto.
Qed.

(** changing an entry that is a hole both before and after *)
Lemma same_hole s k e : is_hole (idx s k) = true -> is_hole e = true ->
  same s (set_ent s k e) none.
Proof.
  intros H1 H2. constructor.
  - constructor; reflexivity.
  - intros [i|j] _; cbn; [|tauto]. unfold fupd.
    destruct (Nat.eqb_spec i k) as [->|N]; [rewrite H1, H2; intuition congruence|tauto].
  - intros i _ [_ Hl]. cbn. unfold fupd. destruct (Nat.eqb_spec i k) as [->|N]; [congruence|reflexivity].
  - reflexivity.
  - intros i _ Hh. cbn. unfold fupd. destruct (Nat.eqb_spec i k) as [->|N]; assumption.
Qed.
Lemma same_any s k e : same s (set_ent s k e) (only (RL k)).
Proof.
  constructor.
  - constructor; reflexivity.
  - intros [i|j] N; cbn; [|tauto]. unfold fupd.
    destruct (Nat.eqb_spec i k) as [->|N']; [elim N; reflexivity|tauto].
  - intros i N _. cbn. unfold fupd. destruct (Nat.eqb_spec i k) as [->|N']; [elim N; reflexivity|reflexivity].
  - reflexivity.
  - intros i N Hh. cbn. unfold fupd. destruct (Nat.eqb_spec i k) as [->|N']; [elim N; reflexivity|assumption].
Qed.
Lemma same_jc s v X : same s (with_jc s v) X.
Proof. constructor; try reflexivity; auto. constructor; reflexivity. Qed.
Lemma same_jv s v X : same s (with_jv s v) X.
Proof. constructor; try reflexivity; auto. constructor; reflexivity. Qed.
Lemma same_tail s v X : same s (with_tail s v) X.
Proof. constructor; try reflexivity; auto. constructor; reflexivity. Qed.
Lemma same_slot s j v : same s (set_rrel s (RP j) v) (only (RP j)).
Proof.
  constructor; try reflexivity; [| |auto].
  - constructor; reflexivity.
  - intros i N. cbn. unfold fupd. destruct (Nat.eqb_spec i j) as [->|N']; [elim N; reflexivity|reflexivity].
Qed.

(** ** The full invariant *)
Definition nonadj (s : st) : Prop :=
  forall i j, nzh s i -> nzh s j -> hole_end s i <> hole_begin s j.
Definition notail (s : st) : Prop := forall i, nzh s i -> hole_end s i <> tail s.
Record Inv (s : st) (L : ref -> Z) : Prop := {
  v_acc : Inv0 s L; v_nonadj : nonadj s; v_notail : notail s
}.

(** holes of [s'] are holes of [s], unchanged *)
Definition hsub (s s' : st) : Prop :=
  forall x, nzh s' x -> nzh s x /\ hole_begin s' x = hole_begin s x /\ hole_end s' x = hole_end s x.
Lemma hsub_refl s : hsub s s. Proof. intros x H. auto. Qed.
Lemma hsub_trans a b c : hsub a b -> hsub b c -> hsub a c.
Proof.
  intros H1 H2 x Hx. destruct (H2 x Hx) as (A & B & C0). destruct (H1 x A) as (A' & B' & C').
  split; [assumption|]. split; congruence.
Qed.
Lemma hsub_nonadj s s' : hsub s s' -> nonadj s -> nonadj s'.
Proof.
  intros Hs Hn i j Hi Hj. destruct (Hs i Hi) as (A & _ & E1). destruct (Hs j Hj) as (B & E2 & _).
  rewrite E1, E2. apply Hn; assumption.
Qed.
Lemma hsub_notail s s' : hsub s s' -> tail s' = tail s -> notail s -> notail s'.
Proof.
  intros Hs Ht Hn i Hi. destruct (Hs i Hi) as (A & _ & E1). rewrite E1, Ht. apply Hn; assumption.
Qed.

(** a hole never covers a unit where the discrepancy says nobody does *)
Lemma cov_hole s L D T C V i x : InvD s L D T C V -> nzh s i ->
  hole_begin s i <= x < hole_end s i -> 1 <= ind (base s) (tail s - base s) x + D x.
Proof.
  intros H (Hi & Hh & Hu) Hx. rewrite <- (i_cov _ _ _ _ _ _ H x). unfold cov.
  pose proof (sumn_ge1 (cnt s) (fun k => ind (addr s k) (len s L k) x) i Hi
                (fun i _ => proj1 (ind_range _ _ _))) as G. cbn beta in G.
  pose proof (sumn_nonneg (nslots s) (fun j => ind (raddr s (RP j)) (L (RP j)) x)
                (fun i _ => proj1 (ind_range _ _ _))).
  rewrite ind_1 in G; [lia|]. unfold len. rewrite Hh. exact Hx.
Qed.
Lemma cov_nonneg s L x : 0 <= cov s L x.
Proof.
  unfold cov.
  pose proof (sumn_nonneg (cnt s) (fun k => ind (addr s k) (len s L k) x)
                (fun i _ => proj1 (ind_range _ _ _))).
  pose proof (sumn_nonneg (nslots s) (fun j => ind (raddr s (RP j)) (L (RP j)) x)
                (fun i _ => proj1 (ind_range _ _ _))). lia.
Qed.
(** a chunk that is "missing" from the cover lies inside the data area *)
Lemma gap_bounds s L c u T C V : InvD s L (fun x => - ind c u x) T C V -> 0 < u ->
  base s <= c /\ c + u <= tail s.
Proof.
  intros H Hu.
  assert (E : forall x, c <= x < c + u -> base s <= x < tail s).
  { intros x Hx. pose proof (i_cov _ _ _ _ _ _ H x) as Hc. cbn beta in Hc.
    pose proof (cov_nonneg s L x). rewrite (ind_1 c u x) in Hc by assumption.
    assert (P : 0 < ind (base s) (tail s - base s) x) by lia. apply ind_1_inv in P. lia. }
  pose proof (E c). pose proof (E (c + u - 1)). lia.
Qed.

(** ** Trimming the index *)
Lemma trim_from_spec L n : forall s m,
  n = cnt s -> cnt s = S m -> is_hole (idx s m) = true ->
  InvD s L (fun x => ind (addr s m) (hunits (idx s m)) x) (hunits (idx s m)) 0 (hunits (idx s m)) ->
  (forall h, (h < m)%nat -> nzh s h -> hole_end s h = tail s ->
     forall x, (x < m)%nat -> nzh s x -> hole_end s x <> hole_begin s h) ->
  let s' := trim_from n s in
  Inv0 s' L /\ idx s' = idx s /\ pre s' = pre s /\ cfg_eq s s' /\ (cnt s' <= m)%nat /\
  (forall k, (cnt s' <= k <= m)%nat -> is_hole (idx s k) = true) /\
  ((tail s' = tail s /\ (forall k, (cnt s' <= k < m)%nat -> hunits (idx s k) = 0)) \/
   (exists h, (cnt s' <= h < m)%nat /\ nzh s h /\ hole_end s h = tail s /\ tail s' = hole_begin s h /\
      forall k, (cnt s' <= k < m)%nat -> k <> h -> hunits (idx s k) = 0)).
Proof.
  induction n as [|n IH]; intros s m Hn Hm Hh H Hadj; [congruence|].
  assert (n = m) as -> by congruence.
  cbn [trim_from].
  set (s1 := with_cnt (with_jc s (jc s - 1)) m).
  assert (Hjc : 1 <= jc s).
  { pose proof (i_jc _ _ _ _ _ _ H) as E. rewrite Hm in E. cbn [sumn] in E.
    pose proof (sumn_nonneg m (hcount s) (fun k _ => hcount_nonneg s k)).
    unfold hcount at 2 in E. rewrite Hh in E. cbn in E. lia. }
  assert (H1 : Inv0 s1 L).
  { pose proof (P_jc s L _ _ _ _ H (jc s - 1) ltac:(pose proof (i_jcr _ _ _ _ _ _ H); lia)) as A.
    pose proof (P_drop _ L _ _ _ _ A m Hm) as B. fold s1 in B.
    eapply InvD_eq; [exact B|..]; unfold zero_d; cbn beta.
    - intros x. change (addr (with_jc s (jc s - 1)) m) with (addr s m).
      unfold len. cbn [with_jc idx]. rewrite Hh. lia.
    - unfold len. cbn [with_jc idx]. rewrite Hh. lia.
    - unfold hcount. cbn [with_jc idx]. rewrite Hh. cbn [Z.b2z]. lia.
    - unfold hvol. cbn [with_jc idx]. rewrite Hh. lia. }
  assert (C1 : cfg_eq s s1) by (constructor; reflexivity).
  assert (Hdone : Inv0 s1 L /\ idx s1 = idx s /\ pre s1 = pre s /\ cfg_eq s s1 /\ (cnt s1 <= m)%nat /\
    (forall k, (cnt s1 <= k <= m)%nat -> is_hole (idx s k) = true) /\
    ((tail s1 = tail s /\ (forall k, (cnt s1 <= k < m)%nat -> hunits (idx s k) = 0)) \/
     (exists h, (cnt s1 <= h < m)%nat /\ nzh s h /\ hole_end s h = tail s /\ tail s1 = hole_begin s h /\
        forall k, (cnt s1 <= k < m)%nat -> k <> h -> hunits (idx s k) = 0))).
  { split; [assumption|]. split; [reflexivity|]. split; [reflexivity|]. split; [assumption|].
    change (cnt s1) with m. split; [lia|]. split.
    - intros k Hk. assert (k = m) as -> by lia. assumption.
    - left. split; [reflexivity|]. intros; lia. }
  destruct m as [|p]; [exact Hdone|].
  change (idx s1 p) with (idx s p).
  destruct (is_hole (idx s p)) eqn:Ehp; cbn [negb]; [|exact Hdone].
  pose proof (hunits_range (idx s p)) as Hur.
  destruct (hunits (idx s p) =? 0) eqn:Eu.
  - (* a zero hole follows *)
    destruct (IH s1 p eq_refl eq_refl Ehp) as (A1 & A2 & A3 & A4 & A5 & A6 & A7).
    + eapply InvD_eq; [exact H1|..]; unfold zero_d; change (idx s1 p) with (idx s p); try lia.
      intros x. cbn beta. rewrite ind_0 by lia. reflexivity.
    + intros h Hh1 (N1 & N2 & N3) He x Hx (X1 & X2 & X3).
      cbn [s1 with_cnt with_jc cnt idx] in *.
      apply (Hadj h); [lia|split; [lia|split; assumption]|exact He|lia|split; [lia|split; assumption]].
    + change (idx s1) with (idx s) in *. change (tail s1) with (tail s) in *.
      change (pre s1) with (pre s) in A3.
      split; [assumption|]. split; [assumption|]. split; [assumption|].
      split; [eapply cfg_eq_trans; eassumption|]. split; [lia|]. split.
      { intros k Hk. destruct (Nat.eq_dec k (S p)) as [->|N]; [assumption|apply A6; lia]. }
      destruct A7 as [[T1 T2]|(h & T1 & T2 & T3 & T4 & T5)].
      * left. split; [assumption|]. intros k Hk.
        destruct (Nat.eq_dec k p) as [->|N]; [lia|apply T2; lia].
      * right. exists h. split; [lia|].
        destruct T2 as (N1 & N2 & N3). cbn [s1 with_cnt with_jc cnt idx] in N1, N2, N3.
        split; [split; [lia|split; assumption]|]. split; [exact T3|]. split; [exact T4|].
        intros k Hk N. destruct (Nat.eq_dec k p) as [->|N']; [lia|apply T5; [lia|assumption]].
  - assert (Np : nzh s p) by (split; [lia|split; [assumption|lia]]).
    assert (Np1 : nzh s1 p) by (split; [cbn; lia|split; [assumption|]]; change (idx s1 p) with (idx s p); lia).
    change (hole_end s1 p) with (hole_end s p). change (tail s1) with (tail s).
    destruct (hole_end s p =? tail s) eqn:Et; cbn [negb]; [|exact Hdone].
    (* the hole next to the tail evaporates *)
    set (u := hunits (idx s p)) in *. change (jv s1) with (jv s).
    set (s2 := with_tail (with_jv s1 (jv s - u)) (tail s - u)).
    pose proof (nzh_bounds s1 L H1 p Np1) as [Bb Be].
    change (hole_begin s1 p) with (hole_begin s p) in Bb. change (base s1) with (base s) in Bb.
    pose proof (hunits_le_jv s1 L H1 p Np1) as Hv.
    change (idx s1 p) with (idx s p) in Hv. change (jv s1) with (jv s) in Hv. fold u in Hv.
    assert (Ht : tail s - u = hole_begin s p) by (unfold hole_end in Et; unfold hole_begin, u; lia).
    assert (H2 : InvD s2 L (fun x => ind (addr s2 p) (hunits (idx s2 p)) x) (hunits (idx s2 p)) 0
                   (hunits (idx s2 p))).
    { pose proof (P_jv s1 L _ _ _ _ H1 (jv s - u)
        ltac:(pose proof (i_jvr _ _ _ _ _ _ H); lia)) as A.
      pose proof (c_tail _ (i_cfg _ _ _ _ _ _ H)) as Ct.
      pose proof (P_tail _ L _ _ _ _ A (tail s - u)) as B.
      change (base (with_jv s1 (jv s - u))) with (base s) in B.
      change (end_ (with_jv s1 (jv s - u))) with (end_ s) in B.
      change (tail (with_jv s1 (jv s - u))) with (tail s) in B.
      specialize (B ltac:(lia)). fold s2 in B.
      change (idx s2 p) with (idx s p). change (addr s2 p) with (addr s p). fold u.
      eapply InvD_eq; [exact B|..]; unfold zero_d; try lia.
      - intros x. unfold hole_begin in Ht, Bb. rewrite Ht.
        replace (tail s - base s) with ((addr s p - base s) + u) by lia.
        rewrite ind_split by lia. replace (base s + (addr s p - base s)) with (addr s p) by lia. lia.
      - change (jv s1) with (jv s). lia. }
    destruct (IH s2 p eq_refl eq_refl Ehp H2) as (A1 & A2 & A3 & A4 & A5 & A6 & A7).
    { intros h Hh1 (N1 & N2 & N3) He. exfalso.
      cbn [s2 s1 with_cnt with_jc with_tail with_jv cnt idx] in *.
      change (hole_end s2 h) with (hole_end s h) in He. change (tail s2) with (tail s - u) in He.
      apply (Hadj p ltac:(lia) Np ltac:(lia) h ltac:(lia)); [split; [lia|split; assumption]|lia]. }
    change (idx s2) with (idx s) in *. change (tail s2) with (tail s - u) in *.
    change (pre s2) with (pre s) in A3.
    split; [assumption|]. split; [assumption|]. split; [assumption|].
    split; [eapply cfg_eq_trans; [|eassumption]; constructor; reflexivity|]. split; [lia|]. split.
    { intros k Hk. destruct (Nat.eq_dec k (S p)) as [->|N]; [assumption|apply A6; lia]. }
    right. destruct A7 as [[T1 T2]|(h & T1 & T2 & T3 & T4 & T5)].
    + exists p. split; [lia|]. split; [assumption|]. split; [lia|]. split; [lia|].
      intros k Hk N. apply T2. lia.
    + exfalso. destruct T2 as (N1 & N2 & N3).
      cbn [s2 s1 with_cnt with_jc with_tail with_jv cnt idx] in N1, N2, N3.
      change (hole_end s2 h) with (hole_end s h) in T3.
      apply (Hadj p ltac:(lia) Np ltac:(lia) h ltac:(lia)); [split; [lia|split; assumption]|lia].
Qed.

(** trimming starting from a zero hole at the beginning of the index *)
Lemma trim_spec s L m :
  cnt s = S m -> is_hole (idx s m) = true -> hunits (idx s m) = 0 -> Inv0 s L ->
  (forall h, nzh s h -> hole_end s h = tail s -> forall x, nzh s x -> hole_end s x <> hole_begin s h) ->
  let s' := trim_hole s in
  Inv0 s' L /\ idx s' = idx s /\ same s s' none /\ (cnt s' <= m)%nat /\ hsub s s' /\
  ((tail s' = tail s /\ (forall k, nzh s k -> nzh s' k)) \/
   (exists h, (cnt s' <= h)%nat /\ nzh s h /\ hole_end s h = tail s /\ tail s' = hole_begin s h /\
      (forall k, nzh s k -> k <> h -> nzh s' k) /\ notail s')).
Proof.
  intros Hm Hh Hu H Hadj.
  destruct (trim_from_spec L (cnt s) s m eq_refl Hm Hh) as (A1 & A2 & A3 & A4 & A5 & A6 & A7).
  { eapply InvD_eq; [exact H|..]; unfold zero_d; try lia.
    intros x. rewrite ind_0 by lia. reflexivity. }
  { intros h _ N1 N2 x _ X. apply (Hadj h N1 N2 x X). }
  fold (trim_hole s) in *. set (s' := trim_hole s) in *.
  assert (Hown : forall k, own s' k = own s k) by (intros; unfold own; rewrite (q_pivot _ _ A4); reflexivity).
  assert (Hb : forall k, hole_begin s' k = hole_begin s k)
    by (intros; unfold hole_begin, addr; rewrite Hown, A2; reflexivity).
  assert (He : forall k, hole_end s' k = hole_end s k)
    by (intros; unfold hole_end, addr; rewrite Hown, A2; reflexivity).
  assert (Hsub : hsub s s').
  { intros x (X1 & X2 & X3). rewrite A2 in *. split; [split; [lia|split; assumption]|auto]. }
  split; [assumption|]. split; [assumption|]. split.
  { constructor; auto.
    - intros [k|j] _; cbn; [|rewrite (q_nslots _ _ A4); tauto].
      rewrite A2. split; intros [B1 B2]; (split; [|assumption]); [|lia].
      destruct (Nat.lt_ge_cases k (cnt s')) as [Lt|Ge]; [assumption|].
      rewrite A6 in B2 by lia. discriminate.
    - intros k _ _. rewrite A2. reflexivity.
    - intros j _. rewrite A3. reflexivity.
    - intros k _. rewrite A2. auto. }
  split; [assumption|]. split; [assumption|].
  assert (Hkeep : forall k, nzh s k -> (k < m)%nat \/ k = m) by (intros k (X & _); lia).
  destruct A7 as [[T1 T2]|(h & T1 & T2 & T3 & T4 & T5)].
  - left. split; [assumption|]. intros k (X1 & X2 & X3). split; [|rewrite A2; auto].
    destruct (Nat.lt_ge_cases k (cnt s')) as [Lt|Ge]; [assumption|].
    destruct (Nat.eq_dec k m) as [->|N]; [lia|]. rewrite T2 in X3 by lia. lia.
  - right. exists h. split; [lia|]. split; [assumption|]. split; [assumption|]. split; [assumption|].
    split.
    + intros k (X1 & X2 & X3) N. split; [|rewrite A2; auto].
      destruct (Nat.lt_ge_cases k (cnt s')) as [Lt|Ge]; [assumption|].
      destruct (Nat.eq_dec k m) as [->|N']; [lia|]. rewrite T5 in X3 by lia. lia.
    + intros k X Ek. destruct (Hsub k X) as (Y & _ & _). rewrite He, T4 in Ek.
      apply (Hadj h T2 T3 k Y Ek).
Qed.

(** purging an entry whose payload has already been written off, then trimming *)
Lemma purge_trim_spec s L k :
  (k < cnt s)%nat -> is_hole (idx s k) = true ->
  InvD s L (fun x => ind (addr s k) (hunits (idx s k)) x) (hunits (idx s k)) 0 (hunits (idx s k)) ->
  (forall h, nzh s h -> h <> k -> hole_end s h = tail s ->
     forall x, nzh s x -> x <> k -> hole_end s x <> hole_begin s h) ->
  let s' := purge_trim s k in
  Inv0 s' L /\ same s s' none /\ hsub s s' /\ ~ nzh s' k /\
  (forall i, i <> k -> idx s' i = idx s i) /\
  ((tail s' = tail s /\ (forall i, nzh s i -> i <> k -> nzh s' i)) \/
   (exists h, h <> k /\ (cnt s' <= h)%nat /\ nzh s h /\ hole_end s h = tail s /\ tail s' = hole_begin s h /\
      (forall i, nzh s i -> i <> k -> i <> h -> nzh s' i) /\ notail s')).
Proof.
  intros Hk Hh H Hadj s'. subst s'. unfold purge_trim.
  destruct purged_hole as (P1 & P2 & P3 & P4).
  set (s1 := purge s k).
  assert (E1 : idx s1 k = purged) by apply fupd_same.
  assert (Eo : forall i, i <> k -> idx s1 i = idx s i) by (intros; apply fupd_other; assumption).
  assert (H1 : Inv0 s1 L).
  { pose proof (P_set s L _ _ _ _ H k purged L Hk) as A. cbv zeta in A.
    rewrite P1, P2, P3 in A.
    assert (Q : InvD (set_ent s k purged) L
      (fun x => ind (addr s k) (hunits (idx s k)) x - ind (addr s k) (len s L k) x +
         ind (own s k + 0) 0 x) (hunits (idx s k) - len s L k + 0)
         (0 - hcount s k + Z.b2z true) (hunits (idx s k) - hvol s k + 0)).
    { apply A; [split; [rewrite P3; lia|split; [lia|intros; lia]]|apply (i_len _ _ _ _ _ _ H)|reflexivity]. }
    eapply InvD_eq; [exact Q|..]; unfold len, hcount, hvol, zero_d; rewrite Hh; cbn [Z.b2z]; try lia.
    intros x. rewrite (ind_0 _ 0) by lia. lia. }
  assert (S1 : same s s1 none) by (apply same_hole; assumption).
  assert (Nk : ~ nzh s1 k) by (intros (_ & _ & X); rewrite E1, P2 in X; lia).
  assert (Hs1 : hsub s s1).
  { intros x Hx. assert (x <> k) by (intros ->; apply (Nk Hx)).
    destruct Hx as (X1 & X2 & X3). rewrite Eo in X2, X3 by assumption.
    split; [split; [exact X1|split; assumption]|].
    unfold hole_begin, hole_end, addr. rewrite Eo by assumption. split; reflexivity. }
  assert (Hk1 : forall i, nzh s i -> i <> k -> nzh s1 i).
  { intros i (X1 & X2 & X3) N. split; [exact X1|]. rewrite Eo by assumption. auto. }
  assert (Hadj1 : forall h, nzh s1 h -> hole_end s1 h = tail s1 ->
     forall x, nzh s1 x -> hole_end s1 x <> hole_begin s1 h).
  { intros h Nh Eh x Nx.
    assert (h <> k) by (intros ->; apply (Nk Nh)). assert (x <> k) by (intros ->; apply (Nk Nx)).
    destruct (Hs1 h Nh) as (A & B & Cc). destruct (Hs1 x Nx) as (A' & B' & C').
    rewrite B, C'. apply (Hadj h A H0); [rewrite <- Cc; exact Eh|assumption|assumption]. }
  destruct (is_begin s1 k) eqn:Eb.
  - unfold is_begin in Eb. apply Nat.eqb_eq in Eb.
    destruct (trim_spec s1 L k (eq_sym Eb)) as (A1 & A2 & A3 & A4 & A5 & A6).
    { rewrite E1; assumption. } { rewrite E1; assumption. } { assumption. } { exact Hadj1. }
    split; [assumption|]. split; [eapply same_trans; eassumption|].
    split; [eapply hsub_trans; eassumption|].
    split; [intros X; apply A5 in X; apply (Nk (proj1 X))|].
    split; [intros i N; rewrite A2; apply Eo; assumption|].
    destruct A6 as [[T1 T2]|(h & T1 & T2 & T3 & T4 & T5 & T6)].
    + left. split; [exact T1|]. intros i Hi N. apply T2. apply Hk1; assumption.
    + right. exists h. assert (h <> k) by (intros ->; apply (Nk T2)).
      destruct (Hs1 h T2) as (B1 & B2 & B3).
      split; [assumption|]. split; [assumption|]. split; [assumption|].
      split; [rewrite <- B3; exact T3|]. split; [rewrite <- B2; exact T4|]. split; [|assumption].
      intros i Hi N N'. apply T5; [apply Hk1; assumption|assumption].
  - split; [assumption|]. split; [assumption|]. split; [assumption|]. split; [assumption|].
    split; [assumption|]. left. split; [reflexivity|]. exact Hk1.
Qed.

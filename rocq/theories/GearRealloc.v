(** * GearRealloc: allocating and resizing (proofs). *)
From Verif Require Import Base Tag TagProofs Gear GearBase GearSearch GearProofs GearMerge GearAlloc.
From Coq Require Import ZifyBool ZifyNat.
Ltac Zify.zify_post_hook ::= Z.div_mod_to_equations.

(** trimming when no hole touches the tail: only zero holes are dropped *)
Lemma trim_quiet L D T C V n : forall s m,
  n = cnt s -> cnt s = S m -> is_hole (idx s m) = true -> hunits (idx s m) = 0 ->
  InvD s L D T C V -> 1 + C <= 1 ->
  notail s ->
  let s' := trim_from n s in
  InvD s' L D T C V /\ idx s' = idx s /\ pre s' = pre s /\ cfg_eq s s' /\ (cnt s' <= m)%nat /\
  tail s' = tail s /\ jv s' = jv s /\
  (forall k, (cnt s' <= k <= m)%nat -> is_hole (idx s k) = true /\ hunits (idx s k) = 0).
Proof.
  induction n as [|n IH]; intros s m Hn Hm Hh Hu H HC Hnt; [congruence|].
  assert (n = m) as -> by congruence. cbn [trim_from].
  set (s1 := with_cnt (with_jc s (jc s - 1)) m).
  assert (Hjc : 1 <= jc s).
  { pose proof (i_jc _ _ _ _ _ _ H) as E. rewrite Hm in E. cbn [sumn] in E.
    pose proof (sumn_nonneg m (hcount s) (fun k _ => hcount_nonneg s k)).
    unfold hcount at 2 in E. rewrite Hh in E. cbn in E. lia. }
  assert (H1 : InvD s1 L D T C V).
  { pose proof (P_jc s L _ _ _ _ H (jc s - 1) ltac:(pose proof (i_jcr _ _ _ _ _ _ H); lia)) as A.
    pose proof (P_drop _ L _ _ _ _ A m Hm) as B. fold s1 in B.
    eapply InvD_eq; [exact B|..].
    - intros x. change (addr (with_jc s (jc s - 1)) m) with (addr s m).
      unfold len. cbn [with_jc idx]. rewrite Hh, ind_0 by lia. lia.
    - unfold len. cbn [with_jc idx]. rewrite Hh. lia.
    - unfold hcount. cbn [with_jc idx]. rewrite Hh. cbn [Z.b2z]. lia.
    - unfold hvol. cbn [with_jc idx]. rewrite Hh. lia. }
  assert (C1 : cfg_eq s s1) by (constructor; reflexivity).
  assert (Hdone : InvD s1 L D T C V /\ idx s1 = idx s /\ pre s1 = pre s /\ cfg_eq s s1 /\ (cnt s1 <= m)%nat /\
    tail s1 = tail s /\ jv s1 = jv s /\
    (forall k, (cnt s1 <= k <= m)%nat -> is_hole (idx s k) = true /\ hunits (idx s k) = 0)).
  { split; [assumption|]. do 2 (split; [reflexivity|]). split; [assumption|].
    change (cnt s1) with m. split; [lia|]. do 2 (split; [reflexivity|]).
    intros k Hk. assert (k = m) as -> by lia. auto. }
  destruct m as [|p]; [exact Hdone|].
  change (idx s1 p) with (idx s p).
  destruct (is_hole (idx s p)) eqn:Ehp; cbn [negb]; [|exact Hdone].
  pose proof (hunits_range (idx s p)) as Hur.
  destruct (hunits (idx s p) =? 0) eqn:Eu.
  - destruct (IH s1 p eq_refl eq_refl Ehp) as (A1 & A2 & A3 & A4 & A5 & A6 & A7 & A8); auto.
    + change (idx s1 p) with (idx s p). lia.
    + intros i (X1 & X2 & X3). apply (Hnt i). split; [cbn in X1; lia|auto].
    + split; [assumption|]. split; [assumption|]. split; [assumption|].
      split; [eapply cfg_eq_trans; eassumption|]. split; [lia|]. split; [assumption|]. split; [assumption|].
      intros k Hk. change (idx s1) with (idx s) in A8.
      destruct (Nat.eq_dec k (S p)) as [->|N]; [auto|apply A8; lia].
  - assert (Np : nzh s p) by (split; [lia|split; [assumption|lia]]).
    change (hole_end s1 p) with (hole_end s p). change (tail s1) with (tail s).
    pose proof (Hnt p Np). replace (hole_end s p =? tail s) with false by lia. cbn [negb]. exact Hdone.
Qed.

(** ** Allocating a run of units *)
Lemma alloc_data_at_spec s L u hole : Inv s L -> 0 < u ->
  (forall h, hole = Some h -> nzh s h /\ u <= hunits (idx s h)) ->
  match alloc_data_at s u hole with
  | Ok c s' => Gap s' L c u /\ same s s' none /\
      match hole with None => c = tail s /\ tail s' = tail s + u /\ u <= tail_space s
                    | Some h => c = hole_begin s h /\ tail s' = tail s end
  | Throw s' => s' = s /\ hole = None /\ tail_space s < u
  | Bad => False
  end.
Proof.
  intros [H Hna Hnt] Hu Hh. unfold alloc_data_at.
  pose proof (i_cfg _ _ _ _ _ _ H) as Hc. destruct Hc as [c1 c2 c3 c4 c6].
  destruct hole as [h|].
  - destruct (Hh h eq_refl) as [Nh Uh]. assert (Nh0 := Nh). destruct Nh0 as (Kh & Hhh & Uh0).
    pose proof (nzh_bounds s L H h Nh) as [Bb Be]. rewrite hole_end_eq in Be.
    pose proof (hunits_le_jv s L H h Nh) as Hv. pose proof (i_jvr _ _ _ _ _ _ H) as Hjvr.
    pose proof (i_ent _ _ _ _ _ _ H h Kh) as (Rh & Gh & _).
    pose proof (own_lt_base _ _ _ _ _ _ h H Kh) as Oh.
    set (s1 := with_jv s (jv s - u)).
    assert (Hs1 : InvD s1 L zero_d 0 0 u).
    { pose proof (P_jv _ L _ _ _ _ H (jv s - u) ltac:(lia)) as A.
      eapply InvD_eq; [exact A|..]; try reflexivity; lia. }
    change (idx s1) with (idx s). pose proof (hunits_range (idx s h)) as Hur.
    assert (Eu : u32 (hunits (idx s h) - u) = hunits (idx s h) - u)
      by (unfold u32; change (2 ^ 32) with 4294967296; rewrite Z.mod_small; lia).
    rewrite Eu. change (addr s1 h) with (hole_begin s h).
    destruct (hunits (idx s h) - u =? 0) eqn:Ee.
    + (* the whole hole *)
      assert (hunits (idx s h) = u) as Eh by lia.
      destruct purged_hole as (P1 & P2 & P3 & P4).
      assert (Op : ent_ok purged) by (split; [rewrite P3; lia|split; [lia|intros; lia]]).
      set (s2 := purge s1 h).
      pose proof (P_hole _ _ _ _ _ _ h purged Hs1 Kh Hhh P1 Op) as A.
      change (set_ent s1 h purged) with s2 in A. change (idx s1) with (idx s) in A.
      assert (H2 : InvD s2 L (fun x => - ind (hole_begin s h) u x) (- u) 0 0).
      { eapply InvD_eq; [exact A|..]; unfold zero_d; rewrite ?P2; try lia.
        intros x. rewrite (ind_0 _ 0) by lia. rewrite Eh. change (addr s1 h) with (hole_begin s h). lia. }
      assert (E1 : idx s2 h = purged) by apply fupd_same.
      assert (Eo : forall i, i <> h -> idx s2 i = idx s i) by (intros; apply fupd_other; assumption).
      assert (N1 : forall x, nzh s2 x -> nzh s x /\ x <> h).
      { intros x (X1 & X2 & X3). assert (x <> h) by (intros ->; rewrite E1, P2 in X3; lia).
        rewrite Eo in X2, X3 by assumption. split; [split; [exact X1|auto]|assumption]. }
      assert (Bo : forall x, x <> h -> hole_begin s2 x = hole_begin s x /\ hole_end s2 x = hole_end s x).
      { intros x Nx. unfold hole_begin, hole_end, addr. rewrite Eo by assumption. auto. }
      assert (NT : notail s2).
      { intros i Hi. destruct (N1 i Hi) as [X N]. rewrite (proj2 (Bo i N)). apply Hnt; assumption. }
      assert (NA : nonadj s2).
      { intros i j Hi Hj. destruct (N1 i Hi) as [X N]. destruct (N1 j Hj) as [X' N'].
        rewrite (proj2 (Bo i N)), (proj1 (Bo j N')). apply Hna; assumption. }
      assert (Sm : same s s2 none).
      { eapply same_trans; [apply same_jv|]. apply same_hole; assumption. }
      unfold purge_trim. fold s2.
      destruct (is_begin s2 h) eqn:Eb.
      * unfold is_begin in Eb. apply Nat.eqb_eq in Eb.
        destruct (trim_quiet L (fun x => - ind (hole_begin s h) u x) (- u) 0 0 (cnt s2) s2 h eq_refl (eq_sym Eb)) as (A1 & A2 & A3 & A4 & A5 & A6 & A7 & A8);
          [rewrite E1; assumption|rewrite E1; assumption|exact H2|lia|assumption|].
        fold (trim_hole s2) in *. set (s3 := trim_hole s2) in *.
        assert (Hsub : hsub s2 s3).
        { intros x (X1 & X2 & X3). rewrite A2 in X2, X3. split; [split; [lia|auto]|].
          apply same_idx_be; [assumption|rewrite A2; reflexivity]. }
        split; [constructor; auto; [eapply hsub_nonadj; eassumption|eapply hsub_notail; eassumption]|].
        split; [|split; [reflexivity|rewrite A6; reflexivity]].
        eapply same_trans; [exact Sm|]. constructor; auto.
        -- intros [k|j] _; unfold live; [|rewrite (q_nslots _ _ A4); tauto].
           rewrite A2. split; intros [B1 B2]; (split; [|assumption]); [|lia].
           destruct (Nat.lt_ge_cases k (cnt s3)) as [Lt|Ge]; [assumption|].
           destruct (A8 k ltac:(lia)) as [X _]. congruence.
        -- intros k _ _. rewrite A2. reflexivity.
        -- intros j _. rewrite A3. reflexivity.
        -- intros k _. rewrite A2. auto.
      * split; [constructor; auto|]. split; [assumption|]. split; reflexivity.
    + (* the front of the hole *)
      set (ex := hunits (idx s h) - u) in *.
      set (e1 := set_units (add_delta (idx s h) u) ex).
      destruct (set_units_hole (add_delta (idx s h) u) ex ltac:(lia)) as (S1 & S2 & S3 & S4).
      fold e1 in S1, S2, S3, S4.
      assert (Er : rel e1 = rel (idx s h) + u).
      { rewrite S3. cbn [add_delta rel]. unfold u16. unfold hole_begin, addr in *. rewrite Z.mod_small; lia. }
      assert (Ho : ent_ok e1) by (split; [unfold hole_begin, addr in *; lia|split; [assumption|intros; lia]]).
      set (s2 := set_ent s1 h e1).
      pose proof (P_hole _ _ _ _ _ _ h e1 Hs1 Kh Hhh S1 Ho) as A. fold s2 in A.
      change (idx s1) with (idx s) in A.
      assert (H2 : InvD s2 L (fun x => - ind (hole_begin s h) u x) (- u) 0 0).
      { eapply InvD_eq; [exact A|..]; unfold zero_d; rewrite ?S2; try (unfold ex; lia).
        intros x. change (own s1 h) with (own s h). change (addr s1 h) with (hole_begin s h).
        rewrite Er. replace (hunits (idx s h)) with (u + ex) by (unfold ex; lia).
        rewrite ind_split by lia. unfold hole_begin, addr.
        replace (own s h + (rel (idx s h) + u)) with (own s h + rel (idx s h) + u) by lia. lia. }
      assert (E1 : idx s2 h = e1) by apply fupd_same.
      assert (Eo : forall i, i <> h -> idx s2 i = idx s i) by (intros; apply fupd_other; assumption).
      assert (N1 : forall x, x <> h -> (nzh s2 x <-> nzh s x)).
      { intros x Nx. unfold nzh. rewrite Eo by assumption. tauto. }
      assert (Bo : forall x, x <> h -> hole_begin s2 x = hole_begin s x /\ hole_end s2 x = hole_end s x).
      { intros x Nx. unfold hole_begin, hole_end, addr. rewrite Eo by assumption. auto. }
      assert (Bb2 : hole_begin s2 h = hole_begin s h + u).
      { unfold hole_begin, addr. rewrite E1, Er. change (own s2 h) with (own s h). lia. }
      assert (Be2 : hole_end s2 h = hole_end s h).
      { rewrite !hole_end_eq, Bb2, E1, S2. unfold ex. lia. }
      split; [constructor; auto|].
      * intros i j Hi Hj. destruct (Nat.eq_dec j h) as [->|Nj].
        -- destruct (Nat.eq_dec i h) as [->|Ni]; [rewrite hole_end_eq, E1, S2; lia|].
           rewrite Bb2, (proj2 (Bo i Ni)). intros E.
           apply N1 in Hi; [|assumption]. pose proof (proj2 (proj2 Hi)).
           apply (nzh_disjoint s L H i h (hole_begin s h + u - 1) Hi Nh Ni).
           ++ rewrite hole_end_eq in E |- *. split; [|lia].
              pose proof (nzh_disjoint s L H i h (hole_begin s h) Hi Nh Ni) as Q.
              rewrite !hole_end_eq in Q. lia.
           ++ rewrite hole_end_eq. lia.
        -- rewrite (proj1 (Bo j Nj)). destruct (Nat.eq_dec i h) as [->|Ni].
           ++ rewrite Be2. apply Hna; [assumption|apply N1; assumption].
           ++ rewrite (proj2 (Bo i Ni)). apply Hna; apply N1; assumption.
      * intros i Hi. change (tail s2) with (tail s). destruct (Nat.eq_dec i h) as [->|Ni].
        -- rewrite Be2. apply Hnt; assumption.
        -- rewrite (proj2 (Bo i Ni)). apply Hnt; apply N1; assumption.
      * split; [|split; reflexivity]. eapply same_trans; [apply same_jv|]. apply same_hole; assumption.
  - unfold tail_alloc. destruct (tail_space s <? u) eqn:Et; [split; [reflexivity|]; split; [reflexivity|lia]|].
    set (s1 := with_tail s (tail s + u)). unfold tail_space in *.
    pose proof (P_tail _ L _ _ _ _ H (tail s + u) ltac:(lia)) as A. fold s1 in A.
    split; [constructor; auto|].
    + eapply InvD_eq; [exact A|..]; unfold zero_d; try lia.
      intros x. replace (tail s + u - base s) with ((tail s - base s) + u) by lia.
      rewrite ind_split by lia. replace (base s + (tail s - base s)) with (tail s) by lia. lia.
    + intros i Hi Ei. pose proof (nzh_bounds s L H i Hi) as [_ Q].
      change (hole_end s1 i) with (hole_end s i) in Ei. change (tail s1) with (tail s + u) in Ei. lia.
    + split; [apply same_tail|]. split; [reflexivity|]. split; [reflexivity|lia].
Qed.

(** ** Attaching a run of units to a reference *)
Lemma attach s L r c u : Gap s L c u -> live s r -> L r = 0 ->
  let s' := set_rpayload s r c in
  Inv s' (Lset L r u) /\ same s s' (only r) /\ live s' r /\ raddr s' r = c /\ tail s' = tail s /\
  (forall k, r = RL k -> gid (idx s' k) = gid (idx s k)).
Proof.
  intros G Hl HL s'. pose proof (gap_in _ _ _ _ G) as [Gb Ge].
  pose proof (g_acc _ _ _ _ G) as H. pose proof (g_pos _ _ _ _ G) as Gp.
  pose proof (i_cfg _ _ _ _ _ _ H) as Hc. destruct Hc as [c1 c2 c3 c4 c6].
  assert (HLs : 0 <= Lset L r u r) by (rewrite Lset_same; lia).
  assert (HLo : forall r', r' <> r -> Lset L r u r' = L r') by (intros; apply Lset_other; assumption).
  destruct r as [k|j].
  - destruct Hl as [Kk Hk]. pose proof (own_lt_base _ _ _ _ _ _ k H Kk) as Ok.
    pose proof (i_ent _ _ _ _ _ _ H k Kk) as (Rk & Gk & _).
    unfold set_rpayload, set_rrel, rown in s'.
    set (e1 := mkE (u16 (c - own s k)) (gid (idx s k))) in *.
    assert (Er : rel e1 = c - own s k) by (cbn [e1 rel]; unfold u16; rewrite Z.mod_small; lia).
    assert (He : is_hole e1 = false) by exact Hk.
    assert (Ho : ent_ok e1) by (split; [lia|split; [exact Gk|congruence]]).
    pose proof (P_set s L _ _ _ _ H k e1 (Lset L (RL k) u) Kk Ho HLs HLo) as A. cbv zeta in A.
    fold s' in A.
    assert (E1 : idx s' k = e1) by apply fupd_same.
    assert (Eo : forall i, i <> k -> idx s' i = idx s i) by (intros; apply fupd_other; assumption).
    assert (N1 : forall x, nzh s' x -> nzh s x /\ x <> k).
    { intros x (X1 & X2 & X3). assert (x <> k) by (intros ->; rewrite E1 in X2; congruence).
      rewrite Eo in X2, X3 by assumption. split; [split; [exact X1|auto]|assumption]. }
    assert (Hs : hsub s s').
    { intros x X. destruct (N1 x X) as [Y N]. split; [assumption|].
      unfold hole_begin, hole_end, addr. rewrite Eo by assumption. auto. }
    split; [constructor|].
    + eapply InvD_eq; [exact A|..]; unfold zero_d, len, hcount, hvol; rewrite Hk, He, ?Lset_same; cbn [Z.b2z]; try lia.
      intros x. rewrite HL, (ind_0 _ 0) by lia. rewrite Er.
      replace (own s k + (c - own s k)) with c by lia. lia.
    + eapply hsub_nonadj; [exact Hs|apply (g_nonadj _ _ _ _ G)].
    + eapply hsub_notail; [exact Hs|reflexivity|apply (g_notail _ _ _ _ G)].
    + split; [apply same_any|]. split; [split; [exact Kk|rewrite E1; exact He]|].
      split; [cbn [raddr rown rrel]; unfold raddr, rown, rrel; rewrite E1, Er; change (own s' k) with (own s k); lia|].
      split; [reflexivity|]. intros k' Ek. injection Ek as <-. rewrite E1. reflexivity.
  - cbn [live] in Hl. specialize (c6 j Hl).
    unfold set_rpayload, rown in s'. set (v := u16 (c - (pivot s + soff s j))) in *.
    assert (Ev : v = c - (pivot s + soff s j)) by (unfold v, u16, base in *; rewrite Z.mod_small; lia).
    pose proof (P_slot s L _ _ _ _ H j v (Lset L (RP j) u) Hl ltac:(unfold base in *; lia) HLs HLo) as A.
    fold s' in A.
    split; [constructor|].
    + eapply InvD_eq; [exact A|..]; unfold zero_d; rewrite ?Lset_same; try lia.
      intros x. rewrite HL, (ind_0 _ 0) by lia. rewrite Ev. unfold rown.
      replace (pivot s + soff s j + (c - (pivot s + soff s j))) with c by lia. lia.
    + exact (g_nonadj _ _ _ _ G).
    + exact (g_notail _ _ _ _ G).
    + split; [apply same_slot|]. split; [exact Hl|]. split.
      { unfold raddr, rown, rrel. cbn [s' set_rrel with_pre pivot soff pre]. rewrite fupd_same, Ev. lia. }
      split; [reflexivity|]. intros k E. discriminate.
Qed.

(** the reverse: forgetting the payload of a reference leaves a gap *)
Lemma detach s L r : Inv s L -> live s r -> 0 < L r -> Gap s (Lset L r 0) (raddr s r) (L r).
Proof.
  intros [H Hna Hnt] Hl HL. constructor; auto.
  assert (Hr : match r with RL k => (k < cnt s)%nat /\ is_hole (idx s k) = false | RP j => (j < nslots s)%nat end)
    by (destruct r; exact Hl).
  pose proof (P_ghost s L _ _ _ _ H r (Lset L r 0) Hr) as A.
  rewrite Lset_same in A.
  specialize (A ltac:(lia) (fun r' N => Lset_other L r r' 0 N)).
  eapply InvD_eq; [exact A|..]; unfold zero_d; try lia.
  intros x. rewrite (ind_0 _ 0) by lia. lia.
Qed.

Lemma InvD_Lext s L L' D T C V : (forall r, L' r = L r) -> InvD s L D T C V -> InvD s L' D T C V.
Proof.
  intros E H.
  assert (El : forall k, len s L' k = len s L k) by (intros; unfold len; rewrite E; reflexivity).
  destruct H as [h1 h2 h3 h4 h5 h6 h7 h8 h9 h10]. constructor; auto.
  - intros x. rewrite <- h2. unfold cov.
    rewrite (sumn_ext (cnt s) _ (fun k => ind (addr s k) (len s L k) x)) by (intros; rewrite El; reflexivity).
    f_equal. apply sumn_ext. intros. rewrite E. reflexivity.
  - intros r. rewrite E. apply h3.
  - rewrite <- h4. unfold total. rewrite (sumn_ext (cnt s) _ (len s L)) by (intros; apply El).
    f_equal. apply sumn_ext. intros. apply E.
Qed.
Lemma Inv_Lext s L L' : (forall r, L' r = L r) -> Inv s L -> Inv s L'.
Proof. intros E [H A B]. constructor; auto. eapply InvD_Lext; eassumption. Qed.
Lemma Lset_twice L r a b r' : Lset (Lset L r a) r b r' = Lset L r b r'.
Proof.
  destruct (ref_eq_dec r' r) as [->|N]; [rewrite !Lset_same; reflexivity|].
  rewrite !Lset_other by assumption. reflexivity.
Qed.

(** ** Creating a loose field *)
Lemma alloc_loose_spec s L tag u : Inv s L -> 0 <= u < 65536 -> 0 <= tag < 65536 ->
  is_hole (mkE 0 tag) = false ->
  match alloc_loose repaired s tag u with
  | Ok k s' => ~ live s (RL k) /\ live s' (RL k) /\ gid (idx s' k) = tag /\
      same s s' (only (RL k)) /\ Inv s' (Lset L (RL k) u) /\ (u = 0 -> rel (idx s' k) = 0)
  | Throw s' => s' = s /\
      ((0 < u /\ tail_space s < u /\ forall k, nzh s k -> hunits (idx s k) < u) \/
       (index_full s /\ forall k, nzh s k -> u = 0 \/ hunits (idx s k) <> u))
  | Bad => False
  end.
Proof.
  intros Hi Hu Htag Hh. assert (Hi0 := Hi). destruct Hi0 as [H Hna Hnt]. unfold alloc_loose.
  pose proof (i_cfg _ _ _ _ _ _ H) as Hc. destruct Hc as [c1 c2 c3 c4 c6].
  assert (Eg : u16 tag = tag) by (unfold u16; rewrite Z.mod_small; lia). rewrite Eg.
  assert (Ht : forall v, is_hole (mkE v tag) = false) by (intros; exact Hh).
  assert (HLn : forall k v, 0 <= v -> 0 <= Lset L (RL k) v (RL k)) by (intros; rewrite Lset_same; lia).
  assert (HLo : forall k v r, r <> RL k -> Lset L (RL k) v r = L r) by (intros; apply Lset_other; assumption).
  (* holes after a new live entry [k] has been put in the index *)
  assert (Fin : forall k s1 e D T V, cfg_eq s s1 -> idx s1 = idx s -> tail s1 = tail s ->
    (forall i, i <> k -> (i < cnt s1)%nat -> (i < cnt s)%nat) -> is_hole e = false ->
    InvD (set_ent s1 k e) (Lset L (RL k) u) D T 0 V -> hsub s (set_ent s1 k e)).
  { intros k s1 e D T V Q1 Q2 Q3 Q4 He _ x (X1 & X2 & X3).
    assert (x <> k) by (intros ->; cbn in X2; rewrite fupd_same in X2; congruence).
    assert (Ex : idx (set_ent s1 k e) x = idx s x) by (cbn; rewrite fupd_other, Q2 by assumption; reflexivity).
    rewrite Ex in X2, X3. split; [split; [apply Q4; assumption|auto]|].
    apply same_idx_be; [|assumption]. destruct Q1. constructor; assumption. }
  destruct (u =? 0) eqn:Eu.
  - (* no payload *)
    assert (u = 0) as -> by lia.
    pose proof (index_alloc_spec _ _ _ _ _ H) as Q.
    destruct (index_alloc s) as [k s1|s1|]; cbn [bind]; [| |contradiction].
    2:{ destruct Q as [-> Q]. split; [reflexivity|]. right. split; [assumption|]. auto. }
    destruct Q as (Q1 & Q2 & Q3 & Q4 & Q5 & Q6 & Q7 & Q8 & Q9 & Q10 & Q11 & Q12).
    assert (Ho : ent_ok (mkE 0 tag)) by (split; [cbn; lia|split; [exact Htag|rewrite Ht; discriminate]]).
    pose proof (Q11 (mkE 0 tag) (Lset L (RL k) 0) Ho (HLn k 0 ltac:(lia)) (HLo k 0)) as A.
    cbv zeta in A. rewrite Ht, Lset_same in A.
    assert (E1 : idx (set_ent s1 k (mkE 0 tag)) k = mkE 0 tag) by apply fupd_same.
    pose proof (Fin k s1 (mkE 0 tag) _ _ _ Q1 Q2 Q4 Q10 (Ht 0) A) as Hs.
    split; [assumption|]. split; [split; [exact Q6|rewrite E1; apply Ht]|].
    split; [rewrite E1; reflexivity|]. split.
    { apply same_index; auto. right. reflexivity. }
    split; [|rewrite E1; reflexivity]. constructor.
    + eapply InvD_eq; [exact A|..]; unfold zero_d; try reflexivity. intros x. rewrite ind_0 by lia. reflexivity.
    + eapply hsub_nonadj; eassumption.
    + eapply hsub_notail; [exact Hs|exact Q4|assumption].
  - destruct (lookup_fit_spec s L u H ltac:(lia)) as (o & El & Ho). rewrite El.
    destruct o as [h|].
    + destruct Ho as (Nh & Uh & Hbest). assert (Nh0 := Nh). destruct Nh0 as (Kh & Hhh & Uh0).
      pose proof (nzh_bounds s L H h Nh) as [Bb Be]. rewrite hole_end_eq in Be.
      pose proof (hunits_le_jv s L H h Nh) as Hv. pose proof (i_jvr _ _ _ _ _ _ H) as Hjvr.
      pose proof (i_jcr _ _ _ _ _ _ H) as Hjcr. pose proof (jc_pos s L H h Kh Hhh) as Hjp.
      pose proof (i_ent _ _ _ _ _ _ H h Kh) as (Rh & Gh & _).
      pose proof (own_lt_base _ _ _ _ _ _ h H Kh) as Oh.
      pose proof (hunits_range (idx s h)) as Hur.
      assert (Eu' : u32 (hunits (idx s h) - u) = hunits (idx s h) - u)
        by (unfold u32; change (2 ^ 32) with 4294967296; rewrite Z.mod_small; lia).
      rewrite Eu'. destruct (hunits (idx s h) - u =? 0) eqn:Ee.
      * (* the hole becomes the field *)
        set (e1 := mkE (rel (idx s h)) tag).
        set (s1 := with_jc (with_jv s (jv s - u)) (jc s - 1)).
        assert (Hs1 : InvD s1 L zero_d 0 1 u).
        { pose proof (P_jv _ L _ _ _ _ H (jv s - u) ltac:(lia)) as A.
          pose proof (P_jc _ L _ _ _ _ A (jc s - 1) ltac:(lia)) as B. fold s1 in B.
          eapply InvD_eq; [exact B|..]; try reflexivity; cbn [with_jv jc]; lia. }
        assert (Ho1 : ent_ok e1) by (split; [exact Rh|split; [exact Htag|unfold e1; rewrite Ht; discriminate]]).
        pose proof (P_set s1 L _ _ _ _ Hs1 h e1 (Lset L (RL h) u) Kh Ho1 (HLn h u ltac:(lia)) (HLo h u)) as A.
        cbv zeta in A. set (s2 := set_ent s1 h e1) in *.
        assert (E1 : idx s2 h = e1) by apply fupd_same.
        assert (H2 : Inv0 s2 (Lset L (RL h) u)).
        { eapply InvD_eq; [exact A|..]; unfold zero_d, len, hcount, hvol, e1;
            change (idx s1 h) with (idx s h); rewrite Ht, Hhh, ?Lset_same; cbn [Z.b2z]; try lia.
          intros x. change (addr s1 h) with (addr s h). change (own s1 h) with (own s h).
          cbn [rel]. change (own s h + rel (idx s h)) with (addr s h).
          replace (hunits (idx s h)) with u by lia. lia. }
        pose proof (Fin h s1 e1 _ _ _ ltac:(constructor; reflexivity) eq_refl eq_refl
                      (fun i _ X => X) (Ht _) H2) as Hs. fold s2 in Hs.
        split; [intros [_ X]; congruence|]. split; [split; [exact Kh|rewrite E1; apply Ht]|].
        split; [rewrite E1; reflexivity|]. split.
        { eapply same_trans; [apply (same_jv s (jv s - u))|]. eapply same_trans; [apply same_jc|]. apply same_any. }
        split; [|lia]. constructor; [assumption|eapply hsub_nonadj; eassumption|
          eapply hsub_notail; [exact Hs|reflexivity|assumption]].
      * (* the field takes the front of the hole *)
        pose proof (index_alloc_spec _ _ _ _ _ H) as Q.
        destruct (index_alloc s) as [k s1|s1|]; cbn [bind]; [| |contradiction].
        2:{ destruct Q as [-> Q]. split; [reflexivity|]. right. split; [assumption|].
            intros i Ni. right. intros Ei. specialize (Hbest i Ni ltac:(lia)). lia. }
        destruct Q as (Q1 & Q2 & Q3 & Q4 & Q5 & Q6 & Q7 & Q8 & Q9 & Q10 & Q11 & Q12).
        assert (Nhk : h <> k) by (intros ->; contradiction).
        assert (Ow : forall i, own s1 i = own s i) by (intros; unfold own; rewrite (q_pivot _ _ Q1); reflexivity).
        assert (Ok0 : 0 <= own s k < base s).
        { split; [|unfold own, base; lia]. destruct Q12 as [(X & _)|(X & X')].
          - pose proof (own_lt_base _ _ _ _ _ _ k H X). lia.
          - unfold own. rewrite X. unfold head_space in X'. lia. }
        assert (Hbeg : hole_begin s1 h = hole_begin s h)
          by (unfold hole_begin, addr; rewrite Ow, Q2; reflexivity).
        rewrite Hbeg. cbn [q_split repaired].
        set (ek := set_payload s1 k (mkE 0 tag) (hole_begin s h)).
        assert (Erk : rel ek = hole_begin s h - own s k).
        { cbn [ek set_payload rel]. rewrite Ow. unfold u16. rewrite Z.mod_small; lia. }
        assert (Hek : is_hole ek = false) by exact (Ht _).
        assert (Hok : ent_ok ek) by (split; [lia|split; [exact Htag|congruence]]).
        pose proof (Q11 ek (Lset L (RL k) u) Hok (HLn k u ltac:(lia)) (HLo k u)) as A.
        cbv zeta in A. rewrite Hek, Lset_same in A.
        set (s2 := set_ent s1 k ek) in *.
        assert (Eh2 : idx s2 h = idx s h) by (cbn; rewrite fupd_other, Q2 by assumption; reflexivity).
        rewrite Eh2.
        set (ex := hunits (idx s h) - u) in *.
        set (eh := set_units (add_delta (idx s h) u) ex).
        destruct (set_units_hole (add_delta (idx s h) u) ex ltac:(lia)) as (S1 & S2 & S3 & S4).
        fold eh in S1, S2, S3, S4.
        assert (Er : rel eh = rel (idx s h) + u).
        { rewrite S3. cbn [add_delta rel]. unfold u16. unfold hole_begin, addr in *. rewrite Z.mod_small; lia. }
        assert (Hoh : ent_ok eh) by (split; [unfold hole_begin, addr in *; lia|split; [assumption|intros; lia]]).
        assert (Kh2 : (h < cnt s2)%nat) by (cbn; lia).
        pose proof (P_hole _ _ _ _ _ _ h eh A Kh2 ltac:(rewrite Eh2; assumption) S1 Hoh) as B.
        set (s3 := set_ent s2 h eh) in *.
        assert (Ejv : jv s3 = jv s) by (cbn; exact Q5).
        pose proof (P_jv _ _ _ _ _ _ B (jv s3 - u) ltac:(lia)) as B'.
        set (s4 := with_jv s3 (jv s3 - u)) in *.
        assert (Cf : cfg_eq s s4) by (destruct Q1; constructor; assumption).
        assert (Oh4 : forall i, own s4 i = own s i) by (intros; unfold own; rewrite (q_pivot _ _ Cf); reflexivity).
        assert (H4 : Inv0 s4 (Lset L (RL k) u)).
        { eapply InvD_eq; [exact B'|..]; unfold zero_d; rewrite ?Eh2, ?S2; try (cbn [Z.b2z]; unfold ex; lia).
          intros x. unfold addr. rewrite Eh2, Er, Erk.
          change (own s2 h) with (own s1 h). rewrite Ow.
          replace (own s k + (hole_begin s h - own s k)) with (hole_begin s h) by lia.
          change (own s h + rel (idx s h)) with (hole_begin s h).
          replace (own s h + (rel (idx s h) + u)) with (hole_begin s h + u) by (unfold hole_begin, addr; lia).
          replace (ind (hole_begin s h) (hunits (idx s h)) x)
            with (ind (hole_begin s h) u x + ind (hole_begin s h + u) ex x); [lia|].
          rewrite <- ind_split by lia. f_equal. unfold ex. lia. }
        assert (E4k : idx s4 k = ek).
        { cbn. rewrite fupd_other by auto. apply fupd_same. }
        assert (E4h : idx s4 h = eh) by (cbn; apply fupd_same).
        assert (E4o : forall i, i <> h -> i <> k -> idx s4 i = idx s i).
        { intros i N1 N2. cbn. rewrite !fupd_other, Q2 by assumption. reflexivity. }
        assert (Bb4 : hole_begin s4 h = hole_begin s h + u)
          by (unfold hole_begin, addr; rewrite E4h, Er, Oh4; lia).
        assert (Be4 : hole_end s4 h = hole_end s h)
          by (rewrite !hole_end_eq, Bb4, E4h, S2; unfold ex; lia).
        assert (N4 : forall i, i <> h -> nzh s4 i ->
                  nzh s i /\ hole_begin s4 i = hole_begin s i /\ hole_end s4 i = hole_end s i).
        { intros i N (X1 & X2 & X3). assert (i <> k) by (intros ->; rewrite E4k in X2; congruence).
          rewrite E4o in X2, X3 by assumption. split; [split; [apply Q10; assumption|auto]|].
          apply same_idx_be; [assumption|apply E4o; assumption]. }
        split; [assumption|]. split; [split; [cbn; exact Q6|rewrite E4k; exact Hek]|].
        split; [rewrite E4k; reflexivity|]. split.
        { eapply same_trans; [apply (same_index s s1 k ek (only (RL k))); auto; right; reflexivity|].
          fold s2. eapply same_trans; [|apply same_jv]. apply (same_weaken _ _ none); [|intros r []].
          apply same_hole; [rewrite Eh2; assumption|assumption]. }
        split; [|lia]. constructor; [assumption|..].
        -- intros i j Hi' Hj'. destruct (Nat.eq_dec j h) as [->|Nj].
           ++ destruct (Nat.eq_dec i h) as [->|Ni]; [rewrite hole_end_eq, E4h, S2; lia|].
              destruct (N4 i Ni Hi') as (Y1 & Y2 & Y3). rewrite Bb4, Y3. intros E.
              pose proof (proj2 (proj2 Y1)).
              apply (nzh_disjoint s L H i h (hole_begin s h + u - 1) Y1 Nh Ni).
              ** rewrite hole_end_eq in E |- *. split; [|lia].
                 pose proof (nzh_disjoint s L H i h (hole_begin s h) Y1 Nh Ni) as Z1.
                 rewrite !hole_end_eq in Z1. lia.
              ** rewrite hole_end_eq. lia.
           ++ destruct (N4 j Nj Hj') as (Y1 & Y2 & Y3). rewrite Y2.
              destruct (Nat.eq_dec i h) as [->|Ni]; [rewrite Be4; apply Hna; assumption|].
              destruct (N4 i Ni Hi') as (Z1 & Z2 & Z3). rewrite Z3. apply Hna; assumption.
        -- intros i Hi'. replace (tail s4) with (tail s) by (cbn; symmetry; exact Q4).
           destruct (Nat.eq_dec i h) as [->|Ni]; [rewrite Be4; apply Hnt; assumption|].
           destruct (N4 i Ni Hi') as (Z1 & Z2 & Z3). rewrite Z3. apply Hnt; assumption.
    + (* at the tail *)
      destruct (tail_space s <? u) eqn:Et.
      { split; [reflexivity|]. left. split; [lia|]. split; [lia|exact Ho]. }
      pose proof (index_alloc_spec _ _ _ _ _ H) as Q.
      destruct (index_alloc s) as [k s1|s1|]; cbn [bind]; [| |contradiction].
      2:{ destruct Q as [-> Q]. split; [reflexivity|]. right. split; [assumption|].
          intros i Ni. right. specialize (Ho i Ni). lia. }
      destruct Q as (Q1 & Q2 & Q3 & Q4 & Q5 & Q6 & Q7 & Q8 & Q9 & Q10 & Q11 & Q12).
      assert (Ow : own s1 k = own s k) by (unfold own; rewrite (q_pivot _ _ Q1); reflexivity).
      assert (Ok0 : 0 <= own s k < base s).
      { split; [|unfold own, base; lia]. destruct Q12 as [(X & _)|(X & X')].
        - pose proof (own_lt_base _ _ _ _ _ _ k H X). lia.
        - unfold own. rewrite X. unfold head_space in X'. lia. }
      rewrite Q4. unfold tail_space in Et.
      set (ek := set_payload s1 k (mkE 0 tag) (tail s)).
      assert (Erk : rel ek = tail s - own s k).
      { cbn [ek set_payload rel]. rewrite Ow. unfold u16. rewrite Z.mod_small; lia. }
      assert (Hek : is_hole ek = false) by exact (Ht _).
      assert (Hok : ent_ok ek) by (split; [lia|split; [exact Htag|congruence]]).
      pose proof (Q11 ek (Lset L (RL k) u) Hok (HLn k u ltac:(lia)) (HLo k u)) as A.
      cbv zeta in A. rewrite Hek, Lset_same in A. cbn [Z.b2z] in A.
      set (s2 := set_ent s1 k ek) in *.
      pose proof (P_tail _ _ _ _ _ _ A (tail s + u)) as B.
      assert (Eb2 : base s2 = base s) by (unfold base; cbn; rewrite (q_pivot _ _ Q1), (q_pp _ _ Q1); reflexivity).
      assert (Ee2 : end_ s2 = end_ s) by (cbn; rewrite (q_end _ _ Q1); reflexivity).
      rewrite Eb2, Ee2 in B. specialize (B ltac:(lia)).
      set (s3 := with_tail s2 (tail s + u)) in *.
      assert (E3 : idx s3 k = ek) by apply fupd_same.
      pose proof (Fin k s1 ek _ _ _ Q1 Q2 Q4 Q10 Hek A) as Hs. fold s2 in Hs.
      assert (Hs3 : hsub s s3) by (eapply hsub_trans; [exact Hs|]; intros x X; auto).
      split; [assumption|]. split; [split; [exact Q6|rewrite E3; exact Hek]|].
      split; [rewrite E3; reflexivity|]. split.
      { eapply same_trans; [apply (same_index s s1 k ek (only (RL k))); auto; right; reflexivity|apply same_tail]. }
      split; [|lia]. constructor.
      * eapply InvD_eq; [exact B|..]; unfold zero_d; change (tail s2) with (tail s1); rewrite ?Q4; try lia.
        intros x. rewrite Erk. replace (own s k + (tail s - own s k)) with (tail s) by lia.
        replace (tail s + u - base s) with ((tail s - base s) + u) by lia.
        rewrite ind_split by lia. replace (base s + (tail s - base s)) with (tail s) by lia. lia.
      * eapply hsub_nonadj; eassumption.
      * intros i Hi' Ei. destruct (Hs3 i Hi') as (Y1 & _ & Y3).
        pose proof (nzh_bounds s L H i Y1) as [_ Q]. change (tail s3) with (tail s + u) in Ei. lia.
Qed.

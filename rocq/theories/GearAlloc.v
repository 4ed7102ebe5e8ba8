(** * GearAlloc: allocating (proofs). *)
From Verif Require Import Base Tag TagProofs Gear GearBase GearSearch GearProofs GearMerge.
From Coq Require Import ZifyBool ZifyNat.
Ltac Zify.zify_post_hook ::= Z.div_mod_to_equations.

(** a run of units that belongs to nobody *)
Record Gap (s : st) (L : ref -> Z) (c u : Z) : Prop := {
  g_acc : InvD s L (fun x => - ind c u x) (- u) 0 0;
  g_pos : 0 < u;
  g_nonadj : nonadj s;
  g_notail : notail s
}.

Lemma gap_in s L c u : Gap s L c u -> base s <= c /\ c + u <= tail s.
Proof. intros [H P _ _]. eapply gap_bounds; eassumption. Qed.

(** holes avoid the gap and each other *)
Lemma gap_hole s L c u i x : Gap s L c u -> nzh s i ->
  hole_begin s i <= x < hole_end s i -> base s <= x < tail s /\ ~ (c <= x < c + u).
Proof.
  intros [H P _ _] Ni Hx. pose proof (cov_hole _ _ _ _ _ _ i x H Ni Hx) as G. cbn beta in G.
  pose proof (ind_range c u x). pose proof (ind_range (base s) (tail s - base s) x).
  split; [apply (ind_1_inv (base s) (tail s - base s) x) in G as G' || idtac|].
  - assert (P' : 0 < ind (base s) (tail s - base s) x) by lia. apply ind_1_inv in P'. lia.
  - intros X. rewrite (ind_1 c u x X) in G. lia.
Qed.
Lemma gap_hole_bounds s L c u i : Gap s L c u -> nzh s i ->
  base s <= hole_begin s i /\ hole_end s i <= tail s /\ (hole_end s i <= c \/ c + u <= hole_begin s i).
Proof.
  intros G Ni. pose proof (gap_hole s L c u i) as Q.
  pose proof (g_pos _ _ _ _ G). pose proof (proj2 (proj2 Ni)) as U. rewrite hole_end_eq in *.
  pose proof (Q (hole_begin s i) G Ni ltac:(lia)).
  pose proof (Q (hole_begin s i + hunits (idx s i) - 1) G Ni ltac:(lia)).
  split; [lia|]. split; [lia|].
  destruct (Z.le_gt_cases (c + u) (hole_begin s i)); [auto|left].
  destruct (Z.le_gt_cases (hole_begin s i + hunits (idx s i)) c); [auto|].
  exfalso. destruct (Z.le_gt_cases c (hole_begin s i)).
  - apply (proj2 (Q (hole_begin s i) G Ni ltac:(lia))). lia.
  - apply (proj2 (Q c G Ni ltac:(lia))). lia.
Qed.
Lemma gap_hole_disjoint s L c u i k x : Gap s L c u -> nzh s i -> nzh s k -> i <> k ->
  hole_begin s i <= x < hole_end s i -> hole_begin s k <= x < hole_end s k -> False.
Proof.
  intros [H P _ _] (Hi & Hhi & Hui) (Hk & Hhk & Huk) N Xi Xk.
  pose proof (i_cov _ _ _ _ _ _ H x) as Hc. cbn beta in Hc.
  pose proof (ind_range c u x). pose proof (ind_range (base s) (tail s - base s) x).
  unfold cov in Hc.
  pose proof (sumn_nonneg (nslots s) (fun j => ind (raddr s (RP j)) (L (RP j)) x)
                (fun i _ => proj1 (ind_range _ _ _))).
  assert (G : 2 <= sumn (cnt s) (fun k => ind (addr s k) (len s L k) x)).
  { assert (Z1 : ind (addr s i) (len s L i) x = 1) by (apply ind_1; unfold len; rewrite Hhi; exact Xi).
    assert (Z2 : ind (addr s k) (len s L k) x = 1) by (apply ind_1; unfold len; rewrite Hhk; exact Xk).
    destruct (Nat.lt_gt_cases i k) as [F _]. destruct (F N) as [Lt|Lt].
    - pose proof (sumn_ge2 (cnt s) (fun k => ind (addr s k) (len s L k) x) i k ltac:(lia)
        (fun i _ => proj1 (ind_range _ _ _))). cbn beta in *. lia.
    - pose proof (sumn_ge2 (cnt s) (fun k => ind (addr s k) (len s L k) x) k i ltac:(lia)
        (fun i _ => proj1 (ind_range _ _ _))). cbn beta in *. lia. }
  lia.
Qed.

(** ** Taking an index slot *)
Definition index_full (s : st) : Prop :=
  head_space s < 1 /\ forall k, (k < cnt s)%nat -> is_hole (idx s k) = true -> hunits (idx s k) <> 0.

Lemma index_alloc_spec s L D T V : InvD s L D T 0 V ->
  match index_alloc s with
  | Ok k s1 =>
    cfg_eq s s1 /\ idx s1 = idx s /\ pre s1 = pre s /\ tail s1 = tail s /\ jv s1 = jv s /\
    (k < cnt s1)%nat /\ (cnt s <= cnt s1)%nat /\ ~ live s (RL k) /\ ~ nzh s k /\
    (forall i, i <> k -> (i < cnt s1)%nat -> (i < cnt s)%nat) /\
    (forall e L', ent_ok e -> 0 <= L' (RL k) -> (forall r, r <> RL k -> L' r = L r) ->
       let l1 := if is_hole e then hunits e else L' (RL k) in
       InvD (set_ent s1 k e) L' (fun x => D x + ind (own s k + rel e) l1 x) (T + l1)
         (Z.b2z (is_hole e)) (V + if is_hole e then hunits e else 0)) /\
    (((k < cnt s)%nat /\ is_hole (idx s k) = true /\ hunits (idx s k) = 0) \/
     (k = cnt s /\ 1 <= head_space s))
  | Throw s1 => s1 = s /\ index_full s
  | Bad => False
  end.
Proof.
  intros H. unfold index_alloc.
  pose proof (lookup_hole_gid s 0 (i_ent _ _ _ _ _ _ H) ltac:(lia)) as Q.
  pose proof (i_jc _ _ _ _ _ _ H) as Hjc. pose proof (i_jcr _ _ _ _ _ _ H) as Hjr.
  assert (Hgrow : head_space s >= 1 ->
    match Ok (cnt s) (with_cnt s (S (cnt s))) with
    | Ok k s1 =>
      cfg_eq s s1 /\ idx s1 = idx s /\ pre s1 = pre s /\ tail s1 = tail s /\ jv s1 = jv s /\
      (k < cnt s1)%nat /\ (cnt s <= cnt s1)%nat /\ ~ live s (RL k) /\ ~ nzh s k /\
      (forall i, i <> k -> (i < cnt s1)%nat -> (i < cnt s)%nat) /\
      (forall e L', ent_ok e -> 0 <= L' (RL k) -> (forall r, r <> RL k -> L' r = L r) ->
         let l1 := if is_hole e then hunits e else L' (RL k) in
         InvD (set_ent s1 k e) L' (fun x => D x + ind (own s k + rel e) l1 x) (T + l1)
           (Z.b2z (is_hole e)) (V + if is_hole e then hunits e else 0)) /\
      (((k < cnt s)%nat /\ is_hole (idx s k) = true /\ hunits (idx s k) = 0) \/
       (k = cnt s /\ 1 <= head_space s))
    | _ => False
    end).
  { intros Hs. split; [constructor; reflexivity|]. do 4 (split; [reflexivity|]).
    cbn [with_cnt cnt]. split; [lia|]. split; [lia|]. split; [intros [X _]; lia|].
    split; [intros [X _]; lia|]. split; [intros; lia|]. split; [|right; lia].
    intros e L' He HL HL'.
    pose proof (P_grow s L _ _ _ _ H e L' ltac:(unfold head_space in Hs; lia) He HL HL') as A.
    cbv zeta in A |- *. eapply InvD_eq; [exact A|..]; intros; try reflexivity; lia. }
  destruct (jc s >? 0) eqn:Ej.
  - destruct (lookup_gid s (u16 (make_hole 0))) as [k|].
    + destruct Q as (Kk & Hk & Uk). split; [constructor; reflexivity|]. do 4 (split; [reflexivity|]).
      cbn [with_jc cnt]. split; [exact Kk|]. split; [lia|]. split; [intros [_ X]; congruence|].
      split; [intros (_ & _ & X); lia|]. split; [intros; assumption|]. split; [|auto].
      intros e L' He HL HL'.
      pose proof (P_jc s L _ _ _ _ H (jc s - 1) ltac:(lia)) as A.
      pose proof (P_set _ L _ _ _ _ A k e L' Kk He HL HL') as B. cbv zeta in B |- *.
      eapply InvD_eq; [exact B|..]; unfold len, hcount, hvol; cbn [with_jc idx]; rewrite Hk; cbn [Z.b2z];
        try lia.
      intros x. rewrite Uk, (ind_0 _ 0) by lia. change (own (with_jc s (jc s - 1)) k) with (own s k). lia.
    + destruct (head_space s <? 1) eqn:Eh; [|apply Hgrow; lia].
      split; [reflexivity|]. split; [lia|exact Q].
  - destruct (head_space s <? 1) eqn:Eh; [|apply Hgrow; lia].
    split; [reflexivity|]. split; [lia|].
    intros k Kk Hk. rewrite (sum_hcount_zero s (cnt s) ltac:(lia) k Kk) in Hk. discriminate.
Qed.

Lemma same_index s s1 k e X : cfg_eq s s1 -> idx s1 = idx s -> pre s1 = pre s ->
  (k < cnt s1)%nat -> (cnt s <= cnt s1)%nat -> ~ live s (RL k) ->
  (forall i, i <> k -> (i < cnt s1)%nat -> (i < cnt s)%nat) ->
  (is_hole e = true \/ X (RL k)) -> same s (set_ent s1 k e) X.
Proof.
  intros Hc Hi Hp Hk Hcc Hl Hcnt Hor. constructor.
  - destruct Hc. constructor; assumption.
  - intros [i|j] N.
    + cbn. rewrite Hi. unfold fupd. destruct (Nat.eqb_spec i k) as [->|Nk].
      * destruct Hor as [Hh|Hx]; [|contradiction]. rewrite Hh. cbn in Hl. intuition congruence.
      * split; intros [A B]; (split; [|assumption]); [lia|apply Hcnt; assumption].
    + cbn. rewrite (q_nslots _ _ Hc). tauto.
  - intros i N Hli. cbn. rewrite Hi. apply fupd_other. intros ->. apply (Hl Hli).
  - intros j _. cbn. rewrite Hp. reflexivity.
  - intros i N Hh. cbn. rewrite Hi. unfold fupd. destruct (Nat.eqb_spec i k) as [->|Nk]; [|assumption].
    destruct Hor as [He|Hx]; [assumption|contradiction].
Qed.

(** ** [Inv] from a hole [m] and the other holes *)
Lemma Inv_one s s' L m : Inv0 s' L -> nzh s' m -> nonadj s -> notail s -> tail s' = tail s ->
  (forall x, nzh s' x -> x <> m -> nzh s x /\ hole_begin s' x = hole_begin s x /\ hole_end s' x = hole_end s x) ->
  (forall x, nzh s' x -> x <> m -> hole_end s' x <> hole_begin s' m) ->
  (forall x, nzh s' x -> x <> m -> hole_begin s' x <> hole_end s' m) ->
  hole_end s' m <> tail s' -> Inv s' L.
Proof.
  intros H Nm Hna Hnt Ht Hx Hb Ha He. constructor; [assumption|..].
  - intros i j Hi Hj. destruct (Nat.eq_dec i m) as [->|Ni].
    + destruct (Nat.eq_dec j m) as [->|Nj].
      * destruct Nm as (_ & _ & U). rewrite hole_end_eq. lia.
      * intros E. apply (Ha j Hj Nj). auto.
    + destruct (Nat.eq_dec j m) as [->|Nj]; [apply Hb; assumption|].
      destruct (Hx i Hi Ni) as (A & _ & B). destruct (Hx j Hj Nj) as (A' & B' & _).
      rewrite B, B'. apply Hna; assumption.
  - intros i Hi. destruct (Nat.eq_dec i m) as [->|Ni]; [assumption|].
    destruct (Hx i Hi Ni) as (A & _ & B). rewrite B, Ht. apply Hnt; assumption.
Qed.

(** ** Releasing a run of units *)
Lemma hunits_le_jvD s L D T C : InvD s L D T C 0 -> forall k, nzh s k -> hunits (idx s k) <= jv s.
Proof.
  intros H k (Hk & Hh & Hu). pose proof (i_jv _ _ _ _ _ _ H) as E.
  pose proof (sumn_ge1 (cnt s) (hvol s) k Hk (fun i _ => hvol_nonneg s i)) as G.
  replace (hvol s k) with (hunits (idx s k)) in G by (unfold hvol; rewrite Hh; reflexivity).
  lia.
Qed.
Lemma release_data_at_spec s L c u bf af hole0 :
  Gap s L c u -> adj_ok s c (c + u) (bf, af) -> c + u = tail s \/ u + hu s bf + hu s af <= 2047 ->
  (forall h, hole0 = Some h -> (h < cnt s)%nat /\ is_hole (idx s h) = true /\ hunits (idx s h) = 0) ->
  match release_data_at s c u (bf, af) hole0 with
  | Ok o s' =>
    Inv s' L /\ same s s' none /\ tail s' <= tail s /\
    match o with
    | None => tail s' = c - hu s bf /\ c + u = tail s /\ af = None
    | Some m => nzh s' m /\ hunits (idx s' m) = u + hu s bf + hu s af /\ tail s' = tail s
    end /\
    (forall x, nzh s x -> bf <> Some x -> af <> Some x -> nzh s' x /\ idx s' x = idx s x)
  | Throw s' => bf = None /\ af = None /\ hole0 = None /\ c + u <> tail s /\
      s' = with_jv s (jv s + u) /\ index_full s
  | Bad => False
  end.
Proof.
  intros G [Hb Ha] Hcap H0. cbn [fst snd] in Hb, Ha. unfold release_data_at.
  pose proof (gap_in _ _ _ _ G) as [Gb Ge]. pose proof (g_pos _ _ _ _ G) as Gp.
  pose proof (g_acc _ _ _ _ G) as H. pose proof (g_nonadj _ _ _ _ G) as Hna. pose proof (g_notail _ _ _ _ G) as Hnt.
  pose proof (i_cfg _ _ _ _ _ _ H) as Hc. destruct Hc as [c1 c2 c3 c4 c6].
  assert (Hjv : jv s + u <= tail s - base s).
  { pose proof (i_jv _ _ _ _ _ _ H) as A. pose proof (i_tot _ _ _ _ _ _ H) as T. unfold total in T.
    pose proof (i_len _ _ _ _ _ _ H) as HL.
    pose proof (sumn_nonneg (nslots s) (fun j => L (RP j)) (fun j _ => HL (RP j))).
    assert (sumn (cnt s) (hvol s) <= sumn (cnt s) (len s L)).
    { apply sumn_le. intros k _. unfold hvol, len. destruct (is_hole _); [lia|apply HL]. }
    lia. }
  pose proof (i_jvr _ _ _ _ _ _ H) as Hjvr.
  pose proof (hunits_le_jvD _ _ _ _ _ H) as Hhj.
  assert (Hpos : 0 <= base s) by (unfold base; lia).
  destruct (c + u =? tail s) eqn:Et.
  - (* at the end of the data *)
    set (s1 := with_tail s (tail s - u)).
    assert (H1 : Inv0 s1 L).
    { pose proof (P_tail _ L _ _ _ _ H (tail s - u) ltac:(lia)) as A. fold s1 in A.
      eapply InvD_eq; [exact A|..]; unfold zero_d; try lia.
      intros x. replace (tail s - base s) with ((c - base s) + u) by lia.
      rewrite ind_split by lia. replace (base s + (c - base s)) with c by lia.
      replace (tail s - u - base s) with (c - base s) by lia. lia. }
    assert (Taf : af = None).
    { destruct af as [a|]; [|reflexivity]. destruct Ha as [Na Ea].
      pose proof (gap_hole_bounds _ _ _ _ a G Na) as (_ & X & _).
      destruct Na as (_ & _ & U). rewrite hole_end_eq in X. lia. }
    destruct bf as [b|].
    + destruct Hb as [Nb Eb].
      assert (PB : Pre s1 L b).
      { constructor; [assumption|exact Nb|..].
        - intros i j Hi Hj _ _. exact (Hna i j Hi Hj).
        - intros i Hi Ni Ei. change (hole_end s1 i) with (hole_end s i) in Ei.
          change (tail s1) with (tail s - u) in Ei.
          pose proof (proj2 (proj2 Nb)) as Ub. pose proof (proj2 (proj2 Hi)) as Ui.
          change (idx s1) with (idx s) in Ui. rewrite hole_end_eq in Eb, Ei.
          apply (gap_hole_disjoint _ _ _ _ i b (c - 1) G Hi Nb Ni); rewrite hole_end_eq; lia. }
      destruct (evaporate_spec s1 L b PB) as (A1 & A2 & A3 & A4 & A5).
      { change (hole_end s1 b) with (hole_end s b). change (tail s1) with (tail s - u). lia. }
      { intros x X. exact (Hna x b X Nb). }
      split; [exact A1|]. split; [eapply same_trans; [apply same_tail|exact A2]|].
      pose proof (hunits_range (idx s b)).
      change (idx s1) with (idx s) in *. change (tail s1) with (tail s - u) in A3 |- *.
      split; [rewrite A3; lia|]. split; [cbn [hu]; split; [lia|split; [lia|assumption]]|].
      intros x X N _. split; [apply A4; split; [exact X|congruence]|apply A5; congruence].
    + split.
      { constructor; [assumption|exact Hna|]. intros i Hi Ei. apply (Hb i Hi).
        change (hole_end s1 i) with (hole_end s i) in Ei. change (tail s1) with (tail s - u) in Ei. lia. }
      split; [apply same_tail|]. split; [cbn; lia|]. split; [cbn; split; [lia|split; [lia|assumption]]|].
      intros x X _ _. split; [exact X|reflexivity].
  - (* in the middle *)
    assert (Hcap' : u + hu s bf + hu s af <= 2047) by lia.
    pose proof (hu_range s bf) as Rbf. pose proof (hu_range s af) as Raf.
    assert (Hju : 0 <= jv s + u <= 65535) by lia.
    set (s1 := with_jv s (jv s + u)).
    assert (Hs1 : InvD s1 L (fun x => - ind c u x) (- u) 0 (- u)).
    { pose proof (P_jv _ L _ _ _ _ H (jv s + u) ltac:(lia)) as A.
      eapply InvD_eq; [exact A|..]; try reflexivity; lia. }
    destruct bf as [b|].
    + cbn [hu] in Hcap', Rbf. destruct Hb as [Nb Eb]. assert (Nb0 := Nb). destruct Nb0 as (Kb & Hb & Ub).
      pose proof (Hhj b Nb) as Hjb.
      pose proof (gap_hole_bounds _ _ _ _ b G Nb) as (Bb & Be & _).
      rewrite hole_end_eq in Eb, Be.
      pose proof (i_ent _ _ _ _ _ _ H b Kb) as (Rb & Gbb & _).
      change (idx s1) with (idx s).
      set (e1 := set_units (idx s b) (u + hunits (idx s b))).
      destruct (set_units_hole (idx s b) (u + hunits (idx s b)) ltac:(lia)) as (S1 & S2 & S3 & S4).
      fold e1 in S1, S2, S3, S4.
      assert (Ho : ent_ok e1) by (split; [lia|split; [assumption|intros; lia]]).
      set (s2 := set_ent s1 b e1).
      pose proof (P_hole _ _ _ _ _ _ b e1 Hs1 Kb Hb S1 Ho) as A. fold s2 in A.
      change (idx s1) with (idx s) in A.
      assert (H2 : Inv0 s2 L).
      { eapply InvD_eq; [exact A|..]; unfold zero_d; rewrite ?S2; try lia.
        intros x. rewrite S3. change (own s1 b + rel (idx s b)) with (addr s b).
        change (addr s1 b) with (addr s b). rewrite Z.add_comm with (n := u), ind_split by lia.
        unfold hole_begin in Eb. rewrite Eb. lia. }
      assert (E1 : idx s2 b = e1) by apply fupd_same.
      assert (Eo : forall i, i <> b -> idx s2 i = idx s i) by (intros; apply fupd_other; assumption).
      assert (N2 : nzh s2 b) by (split; [exact Kb|rewrite E1; split; [assumption|lia]]).
      assert (N1 : forall x, x <> b -> (nzh s2 x <-> nzh s x)).
      { intros x Nx. unfold nzh. rewrite Eo by assumption. tauto. }
      assert (Bo : forall x, x <> b -> hole_begin s2 x = hole_begin s x /\ hole_end s2 x = hole_end s x).
      { intros x Nx. unfold hole_begin, hole_end, addr. rewrite Eo by assumption. auto. }
      assert (Bb2 : hole_begin s2 b = hole_begin s b) by (unfold hole_begin, addr; rewrite E1, S3; reflexivity).
      assert (Be2 : hole_end s2 b = c + u).
      { rewrite hole_end_eq, Bb2, E1, S2. lia. }
      assert (PB : Pre s2 L b).
      { constructor; auto.
        - intros i j Hi Hj Ni Nj. rewrite (proj2 (Bo i Ni)), (proj1 (Bo j Nj)).
          apply Hna; apply N1; assumption.
        - intros i Hi Ni. rewrite (proj2 (Bo i Ni)). apply Hnt; apply N1; assumption. }
      assert (Sm : same s s2 none).
      { eapply same_trans; [apply same_jv|]. apply same_hole; assumption. }
      destruct af as [a|].
      * destruct Ha as [Na Ea].
        assert (Nab : a <> b) by (intros ->; lia).
        destruct (merge_right s2 L b a PB) as (A1 & A2 & A3 & A4 & A5 & A6 & A7).
        { apply N1; assumption. } { rewrite Be2, (proj1 (Bo a Nab)). auto. } { assumption. }
        { rewrite E1, S2, (Eo a Nab). cbn [hu] in Hcap'. lia. }
        destruct (merge_holes s2 b a) as [r2 s3] eqn:Em. cbn [fst snd] in *.
        assert (Ht : tail s3 = tail s) by (rewrite A5; reflexivity).
        split.
        { apply (Inv_one s s3 L r2); auto.
          - apply (p_acc _ _ _ A2).
          - apply (p_nz _ _ _ A2).
          - intros x X N. apply (A6 x N) in X. destruct X as (X1 & X2 & X3).
            split; [apply N1; assumption|].
            pose proof (same_idx_be s2 s3 x (f_cfg _ _ _ A1) (A7 x X2 X3)) as [Q1 Q2].
            rewrite Q1, Q2. apply Bo; assumption.
          - intros x X N. apply (A6 x N) in X. destruct X as (X1 & X2 & X3).
            pose proof (same_idx_be s2 s3 x (f_cfg _ _ _ A1) (A7 x X2 X3)) as [Q1 Q2].
            rewrite Q2, A3, Bb2, (proj2 (Bo x X2)). apply Hna; [apply N1; assumption|assumption].
          - intros x X N. apply (A6 x N) in X. destruct X as (X1 & X2 & X3).
            pose proof (same_idx_be s2 s3 x (f_cfg _ _ _ A1) (A7 x X2 X3)) as [Q1 Q2].
            rewrite Q1, A4, (proj1 (Bo x X2)), (proj2 (Bo a Nab)).
            intros E. apply (Hna a x Na); [apply N1; assumption|auto].
          - rewrite A4, Ht, (proj2 (Bo a Nab)). apply Hnt; assumption. }
        split; [eapply same_trans; eassumption|]. split; [lia|]. split.
        { split; [apply (p_nz _ _ _ A2)|]. split; [|assumption]. cbn [hu].
          rewrite hole_end_eq in A4. rewrite A3, Bb2, (proj2 (Bo a Nab)), hole_end_eq in A4. lia. }
        intros x X Nx1 Nx2. assert (x <> b) by congruence. assert (x <> a) by congruence.
        assert (Ei : idx s3 x = idx s x) by (rewrite A7, Eo by assumption; reflexivity).
        split; [|assumption].
        destruct (Nat.eq_dec x r2) as [->|N]; [apply (p_nz _ _ _ A2)|].
        apply A6; [assumption|]. split; [apply N1; assumption|auto].
      * split.
        { apply (Inv_one s s2 L b); auto.
          - intros x X N. split; [apply N1; assumption|apply Bo; assumption].
          - intros x X N. rewrite (proj2 (Bo x N)), Bb2. apply Hna; [apply N1; assumption|assumption].
          - intros x X N. rewrite (proj1 (Bo x N)), Be2. apply Ha. apply N1; assumption.
          - rewrite Be2. change (tail s2) with (tail s). lia. }
        split; [assumption|]. split; [cbn; lia|]. split.
        { split; [assumption|]. rewrite E1, S2. cbn [hu]. split; [lia|reflexivity]. }
        intros x X Nx1 _. assert (x <> b) by congruence. split; [apply N1; assumption|apply Eo; assumption].
    + destruct af as [a|].
      * cbn [hu] in Hcap', Raf. destruct Ha as [Na Ea]. assert (Na0 := Na). destruct Na0 as (Ka & Hha & Ua).
        pose proof (gap_hole_bounds _ _ _ _ a G Na) as (Ba & Bae & _).
        rewrite hole_end_eq in Bae. unfold hole_begin in Ba, Ea, Bae.
        pose proof (i_ent _ _ _ _ _ _ H a Ka) as (Ra & Gaa & _).
        pose proof (own_lt_base _ _ _ _ _ _ a H Ka) as Oa.
        change (idx s1) with (idx s).
        set (e1 := set_units (add_delta (idx s a) (- u)) (u + hunits (idx s a))).
        destruct (set_units_hole (add_delta (idx s a) (- u)) (u + hunits (idx s a)) ltac:(lia)) as (S1 & S2 & S3 & S4).
        fold e1 in S1, S2, S3, S4.
        assert (Er : rel e1 = rel (idx s a) - u).
        { rewrite S3. cbn [add_delta rel]. unfold u16. unfold addr in *. rewrite Z.mod_small; lia. }
        assert (Ho : ent_ok e1) by (split; [unfold addr in *; lia|split; [assumption|intros; lia]]).
        set (s2 := set_ent s1 a e1).
        pose proof (P_hole _ _ _ _ _ _ a e1 Hs1 Ka Hha S1 Ho) as A. fold s2 in A.
        change (idx s1) with (idx s) in A.
        assert (H2 : Inv0 s2 L).
        { eapply InvD_eq; [exact A|..]; unfold zero_d; rewrite ?S2; try lia.
          intros x. rewrite Er. change (own s1 a) with (own s a). change (addr s1 a) with (addr s a).
          replace (own s a + (rel (idx s a) - u)) with c by (unfold addr in Ea; lia).
          rewrite ind_split by lia. rewrite Ea. lia. }
        assert (E1 : idx s2 a = e1) by apply fupd_same.
        assert (Eo : forall i, i <> a -> idx s2 i = idx s i) by (intros; apply fupd_other; assumption).
        assert (N2 : nzh s2 a) by (split; [exact Ka|rewrite E1; split; [assumption|lia]]).
        assert (N1 : forall x, x <> a -> (nzh s2 x <-> nzh s x)).
        { intros x Nx. unfold nzh. rewrite Eo by assumption. tauto. }
        assert (Bo : forall x, x <> a -> hole_begin s2 x = hole_begin s x /\ hole_end s2 x = hole_end s x).
        { intros x Nx. unfold hole_begin, hole_end, addr. rewrite Eo by assumption. auto. }
        assert (Bb2 : hole_begin s2 a = c).
        { unfold hole_begin, addr. rewrite E1, Er. change (own s2 a) with (own s a). unfold addr in Ea. lia. }
        assert (Be2 : hole_end s2 a = hole_end s a).
        { rewrite !hole_end_eq, Bb2, E1, S2. unfold hole_begin. lia. }
        split.
        { apply (Inv_one s s2 L a); auto.
          - intros x X N. split; [apply N1; assumption|apply Bo; assumption].
          - intros x X N. rewrite (proj2 (Bo x N)), Bb2. apply Hb. apply N1; assumption.
          - intros x X N. rewrite (proj1 (Bo x N)), Be2.
            intros E. apply (Hna a x Na); [apply N1; assumption|auto].
          - rewrite Be2. change (tail s2) with (tail s). apply Hnt; assumption. }
        split; [eapply same_trans; [apply same_jv|]; apply same_hole; assumption|]. split; [cbn; lia|]. split.
        { split; [assumption|]. rewrite E1, S2. cbn [hu]. split; [lia|reflexivity]. }
        intros x X _ Nx1. assert (x <> a) by congruence. split; [apply N1; assumption|apply Eo; assumption].
      * (* a new hole *)
        cbn [hu] in Hcap'.
        assert (New : forall h s2 e, idx s2 h = e -> is_hole e = true -> hunits e = u ->
          own s2 h + rel e = c -> (h < cnt s2)%nat -> Inv0 s2 L -> tail s2 = tail s ->
          cfg_eq s s2 -> ~ nzh s h -> same s s2 none ->
          (forall x, x <> h -> idx s2 x = idx s x /\ ((x < cnt s2)%nat <-> (x < cnt s)%nat)) ->
          Inv s2 L /\ same s s2 none /\ tail s2 <= tail s /\
          (nzh s2 h /\ hunits (idx s2 h) = u + 0 + 0 /\ tail s2 = tail s) /\
          (forall x, nzh s x -> None <> Some x -> None <> Some x -> nzh s2 x /\ idx s2 x = idx s x)).
        { intros h s2 e Ee He Hue Hoe Hch H2 Ht2 Hcf Nh Sm Hx.
          assert (N2 : nzh s2 h) by (split; [assumption|rewrite Ee; split; [assumption|lia]]).
          assert (N1 : forall x, x <> h -> (nzh s2 x <-> nzh s x)).
          { intros x Nx. unfold nzh. destruct (Hx x Nx) as [Q1 Q2]. rewrite Q1. tauto. }
          assert (Bo : forall x, x <> h -> hole_begin s2 x = hole_begin s x /\ hole_end s2 x = hole_end s x).
          { intros x Nx. apply same_idx_be; [assumption|apply Hx; assumption]. }
          assert (Bb2 : hole_begin s2 h = c) by (unfold hole_begin, addr; rewrite Ee; exact Hoe).
          assert (Be2 : hole_end s2 h = c + u) by (rewrite hole_end_eq, Bb2, Ee, Hue; reflexivity).
          split.
          { apply (Inv_one s s2 L h); auto.
            - intros x X N. split; [apply N1; assumption|apply Bo; assumption].
            - intros x X N. rewrite (proj2 (Bo x N)), Bb2. apply Hb. apply N1; assumption.
            - intros x X N. rewrite (proj1 (Bo x N)), Be2. apply Ha. apply N1; assumption.
            - rewrite Be2, Ht2. lia. }
          split; [assumption|]. split; [lia|]. split.
          { split; [assumption|]. rewrite Ee, Hue. split; [lia|assumption]. }
          intros x X _ _. assert (x <> h) by (intros ->; contradiction).
          split; [apply N1; assumption|apply Hx; assumption]. }
        destruct hole0 as [h|].
        -- destruct (H0 h eq_refl) as (Kh & Hh & Uh). cbn [bind hu].
           pose proof (own_lt_base _ _ _ _ _ _ h H Kh) as Oh.
           change (idx s1) with (idx s).
           set (e1 := set_payload s1 h (set_units (idx s h) u) c).
           destruct (set_units_hole (idx s h) u ltac:(lia)) as (S1 & S2 & S3 & S4).
           assert (Hh1 : is_hole e1 = true) by exact S1.
           assert (Hu1 : hunits e1 = u) by exact S2.
           assert (Hr1 : rel e1 = c - own s h).
           { cbn [e1 set_payload rel]. change (own s1 h) with (own s h). unfold u16. rewrite Z.mod_small; lia. }
           assert (Ho : ent_ok e1) by (split; [lia|split; [exact S4|intros; lia]]).
           pose proof (P_hole _ _ _ _ _ _ h e1 Hs1 Kh Hh Hh1 Ho) as A.
           set (s2 := set_ent s1 h e1) in *.
           apply (New h s2 e1); auto.
           ++ apply fupd_same.
           ++ rewrite Hr1. change (own s2 h) with (own s h). lia.
           ++ change (idx s1) with (idx s) in A.
              eapply InvD_eq; [exact A|..]; unfold zero_d; try lia.
              intros x. rewrite Hu1, Hr1, Uh. change (own s1 h) with (own s h).
              replace (own s h + (c - own s h)) with c by lia. rewrite (ind_0 _ 0) by lia. lia.
           ++ constructor; reflexivity.
           ++ intros (_ & _ & X). lia.
           ++ eapply same_trans; [apply same_jv|]. apply same_hole; assumption.
           ++ intros x Nx. split; [apply fupd_other; assumption|cbn; tauto].
        -- pose proof (index_alloc_spec _ _ _ _ _ Hs1) as Q.
           destruct (index_alloc s1) as [h s2|s2|]; cbn [bind]; [| |contradiction].
           ++ destruct Q as (Q1 & Q2 & Q3 & Q4 & Q5 & Q6 & Q7 & Q8 & Q9 & Q10 & Q11 & Q12).
              assert (Oh : own s h < base s) by (unfold own, base; lia).
              assert (Oh0 : 0 <= own s h).
              { destruct Q12 as [(Q12 & _)|(Q12 & Q13)];
                  [pose proof (own_lt_base _ _ _ _ _ _ h H Q12); lia|].
                unfold own. rewrite Q12. unfold head_space in Q13. cbn in Q13 |- *. lia. }
              assert (Ow : own (with_jc s2 (jc s2 + 1)) h = own s h)
                by (unfold own; cbn; rewrite (q_pivot _ _ Q1); reflexivity).
              set (e1 := set_payload (with_jc s2 (jc s2 + 1)) h (set_units (idx (with_jc s2 (jc s2 + 1)) h) u) c).
              destruct (set_units_hole (idx (with_jc s2 (jc s2 + 1)) h) u ltac:(lia)) as (S1 & S2 & S3 & S4).
              assert (Hh1 : is_hole e1 = true) by exact S1.
              assert (Hu1 : hunits e1 = u) by exact S2.
              assert (Hr1 : rel e1 = c - own s h).
              { cbn [e1 set_payload rel]. rewrite Ow. unfold u16. rewrite Z.mod_small; lia. }
              assert (Ho : ent_ok e1) by (split; [lia|split; [exact S4|intros; lia]]).
              pose proof (Q11 e1 L Ho (i_len _ _ _ _ _ _ H _) (fun _ _ => eq_refl)) as A.
              cbv zeta in A. rewrite Hh1 in A. cbn [Z.b2z] in A.
              assert (A0 := A). pose proof (i_jc _ _ _ _ _ _ A0) as Aj.
              assert (Hcn : jc s2 + 1 < 65536).
              { cbn [set_ent with_idx jc] in Aj.
                assert (Gn : forall n, sumn n (hcount (set_ent s2 h e1)) <= Z.of_nat n).
                { induction n as [|n IH]; cbn [sumn]; [lia|]. unfold hcount at 2. lia. }
                specialize (Gn (cnt s2)). change (cnt (set_ent s2 h e1)) with (cnt s2) in Aj.
                pose proof (c_cnt _ (i_cfg _ _ _ _ _ _ A0)) as Cc. cbn in Cc.
                rewrite (q_pivot _ _ Q1) in Cc. cbn in Cc. unfold base in *. lia. }
              pose proof (i_jcr _ _ _ _ _ _ A0) as Ajr. cbn in Ajr.
              pose proof (P_jc _ L _ _ _ _ A (jc s2 + 1) ltac:(lia)) as B.
              set (s3 := set_ent (with_jc s2 (jc s2 + 1)) h e1).
              change (with_jc (set_ent s2 h e1) (jc s2 + 1)) with s3 in B.
              cbn [hu]. apply (New h s3 e1); auto.
              ** apply fupd_same.
              ** rewrite Hr1. change (own s3 h) with (own (with_jc s2 (jc s2 + 1)) h). rewrite Ow. lia.
              ** eapply InvD_eq; [exact B|..]; unfold zero_d; try lia.
                 --- intros x. rewrite Hu1, Hr1. change (own s1 h) with (own s h).
                     replace (own s h + (c - own s h)) with c by lia. lia.
                 --- cbn [set_ent with_idx jc]. lia.
              ** destruct Q1. constructor; assumption.
              ** eapply same_trans; [apply same_jv|].
                 pose proof (same_index s1 s2 h e1 none Q1 Q2 Q3 Q6 Q7 Q8 Q10 (or_introl Hh1)) as Sx.
                 eapply same_trans; [exact Sx|]. apply (same_jc (set_ent s2 h e1) (jc s2 + 1)).
              ** intros x Nx. split; [cbn; rewrite fupd_other, Q2 by assumption; reflexivity|].
                 cbn. change (cnt s) with (cnt s1). split; [apply Q10; assumption|lia].
           ++ destruct Q as [-> Q]. split; [reflexivity|]. split; [reflexivity|]. split; [reflexivity|].
              split; [lia|]. split; [reflexivity|exact Q].
Qed.

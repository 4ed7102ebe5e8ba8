(** * GearResize: resizing the payload of a field (proofs). *)
From Verif Require Import Base Tag TagProofs Gear GearBase GearSearch GearProofs GearMerge GearAlloc GearRealloc.
From Coq Require Import ZifyBool ZifyNat.
Ltac Zify.zify_post_hook ::= Z.div_mod_to_equations.

Record resized (s s' : st) (L : ref -> Z) (r : ref) (u : Z) : Prop := {
  z_inv : Inv s' (Lset L r u);
  z_same : same s s' (only r);
  z_live : live s' r;
  z_gid : forall k, r = RL k -> gid (idx s' k) = gid (idx s k)
}.

Lemma raddr_same s s' r : same s s' none -> live s r -> raddr s' r = raddr s r.
Proof.
  intros S Hl. unfold raddr. destruct r as [k|j]; cbn [rown rrel].
  - unfold own. rewrite (q_pivot _ _ (f_cfg _ _ _ S)), (f_ent _ _ _ S); auto.
  - rewrite (q_pivot _ _ (f_cfg _ _ _ S)), (q_soff _ _ (f_cfg _ _ _ S)), (f_pre _ _ _ S); auto.
Qed.

(** allocate and attach: the two last steps of every path *)
Lemma alloc_attach s0 s L r u hole :
  Inv s L -> same s0 s none -> live s r -> L r = 0 -> 0 < u ->
  (forall h, hole = Some h -> nzh s h /\ u <= hunits (idx s h)) ->
  (hole = None -> u <= tail_space s) ->
  exists s', bind (alloc_data_at s u hole) (fun chunk s => Ok tt (set_rpayload s r chunk)) = Ok tt s' /\
    resized s0 s' L r u.
Proof.
  intros Hi Hs Hl HL Hu Hh Ht.
  pose proof (alloc_data_at_spec s L u hole Hi Hu Hh) as Q.
  destruct (alloc_data_at s u hole) as [c s1|s1|]; cbn [bind]; [| |contradiction].
  - destruct Q as (G & S1 & _).
    assert (Hl1 : live s1 r) by (apply (f_live _ _ _ S1); auto).
    destruct (attach s1 L r c u G Hl1 HL) as (A1 & A2 & A3 & A4 & A5 & A6).
    eexists. split; [reflexivity|]. constructor; auto.
    + eapply same_trans; [eapply same_weaken; [exact Hs|intros x []]|].
      eapply same_trans; [eapply same_weaken; [exact S1|intros x []]|exact A2].
    + intros k ->. rewrite (A6 k eq_refl).
      rewrite (f_ent _ _ _ S1) by auto. rewrite (f_ent _ _ _ Hs); auto.
      apply (f_live _ _ _ Hs); auto.
  - destruct Q as (_ & En & Q). specialize (Ht En). lia.
Qed.

Lemma resized_Lext s s' L L' r u : (forall x, Lset L' r u x = Lset L r u x) ->
  resized s s' L r u -> resized s s' L' r u.
Proof. intros E [A B C D]. constructor; auto. eapply Inv_Lext; eassumption. Qed.

Lemma release_and_alloc_spec s L r needed bf af hole0 hole4alloc :
  Inv s L -> live s r -> 0 < L r -> 0 < needed < 65536 ->
  adj_ok s (raddr s r) (raddr s r + L r) (bf, af) ->
  raddr s r + L r = tail s \/ L r + hu s bf + hu s af <= 2047 ->
  (forall h, hole0 = Some h -> (h < cnt s)%nat /\ is_hole (idx s h) = true /\ hunits (idx s h) = 0) ->
  (0 < hu s bf + hu s af \/ head_space s > 0 \/ hole0 <> None) ->
  match hole4alloc with
  | None => needed <= L r + hu s bf + hu s af \/ needed <= tail_space s
  | Some h => nzh s h /\ needed <= hunits (idx s h) /\ L r + hu s bf + hu s af < needed
  end ->
  exists s', release_and_alloc s r (L r) needed (bf, af) hole0 hole4alloc = Ok tt s' /\
    resized s s' L r needed.
Proof.
  intros Hi Hl HL Hn Hadj Hcap H0 HR HA. unfold release_and_alloc.
  pose proof (detach s L r Hi Hl HL) as G.
  pose proof (release_data_at_spec s _ _ _ bf af hole0 G Hadj Hcap H0) as Q.
  pose proof (gap_in _ _ _ _ G) as [Gb Ge].
  destruct (release_data_at s (raddr s r) (L r) (bf, af) hole0) as [o s1|s1|]; cbn [bind]; [| |contradiction].
  2:{ exfalso. destruct Q as (-> & -> & -> & _ & _ & [Q _]). cbn [hu] in HR.
      destruct HR as [X|[X|X]]; [lia|lia|congruence]. }
  destruct Q as (I1 & S1 & T1 & O1 & K1).
  assert (Hl1 : live s1 r) by (apply (f_live _ _ _ S1); auto).
  assert (HL0 : Lset L r 0 r = 0) by apply Lset_same.
  assert (Fin : forall hole, (forall h, hole = Some h -> nzh s1 h /\ needed <= hunits (idx s1 h)) ->
    (hole = None -> needed <= tail_space s1) ->
    exists s', bind (alloc_data_at s1 needed hole) (fun chunk s => Ok tt (set_rpayload s r chunk)) = Ok tt s' /\
      resized s s' L r needed).
  { intros hole F1 F2.
    destruct (alloc_attach s s1 _ r needed hole I1 S1 Hl1 HL0 ltac:(lia) F1 F2) as (s' & E & R).
    exists s'. split; [exact E|]. eapply resized_Lext; [|exact R].
    intros x. symmetry. apply Lset_twice. }
  assert (Ets : tail_space s1 = end_ s - tail s1) by (unfold tail_space; rewrite (q_end _ _ (f_cfg _ _ _ S1)); reflexivity).
  assert (Ct : tail s <= end_ s) by apply (c_tail _ (i_cfg _ _ _ _ _ _ (v_acc _ _ Hi))).
  assert (Again : needed <= L r + hu s bf + hu s af \/ needed <= tail_space s ->
    exists s', match lookup_fit s1 needed with
      | Some hole4alloc0 => bind (alloc_data_at s1 needed hole4alloc0) (fun chunk s => Ok tt (set_rpayload s r chunk))
      | None => Bad end = Ok tt s' /\ resized s s' L r needed).
  { intros HA'. destruct (lookup_fit_spec s1 _ needed (v_acc _ _ I1) ltac:(lia)) as (x & Ex & Hx).
    rewrite Ex. apply Fin.
    - intros h ->. split; [apply Hx|apply Hx].
    - intros ->. rewrite Ets. destruct HA' as [X|X]; [|unfold tail_space in X; lia].
      destruct o as [m|].
      + destruct O1 as (O1 & O2 & O3). specialize (Hx m O1). lia.
      + destruct O1 as (O1 & O2 & ->). cbn [hu] in X. lia. }
  destruct hole4alloc as [h|].
  - destruct HA as (Nh & Uh & Ha). assert (Nh0 := Nh). destruct Nh0 as (Kh & Hhh & Uh0).
    assert (Nbf : bf <> Some h).
    { intros ->. cbn [hu] in Ha. destruct af as [a|]; cbn [hu] in Ha;
        [pose proof (hunits_range (idx s a)); lia|lia]. }
    assert (Naf : af <> Some h).
    { intros ->. cbn [hu] in Ha. destruct bf as [b|]; cbn [hu] in Ha;
        [pose proof (hunits_range (idx s b)); lia|lia]. }
    destruct (K1 h Nh Nbf Naf) as [N1 E1].
    assert (Nb1 := N1). destruct Nb1 as (K & Hh1 & Uh1).
    replace ((h <? cnt s1)%nat) with true by (symmetry; apply Nat.ltb_lt; assumption).
    rewrite E1. replace (hunits (idx s h) =? 0) with false by lia. cbn [negb andb].
    assert (B : best_fit s1 needed o h = h).
    { unfold best_fit. destruct o as [m|]; [|reflexivity].
      destruct O1 as (O1 & O2 & O3). rewrite O2, E1.
      pose proof (hunits_range (idx s h)).
      assert (Hm : 0 <= L r + hu s bf + hu s af).
      { pose proof (i_len _ _ _ _ _ _ (v_acc _ _ Hi) r).
        destruct bf as [b|], af as [a|]; cbn [hu];
          repeat match goal with |- context [hunits ?e] => pose proof (hunits_range e); generalize dependent (hunits e); intros end; lia. }
      assert (U1 : u32 (L r + hu s bf + hu s af - needed) = L r + hu s bf + hu s af - needed + 4294967296).
      { unfold u32. change (2 ^ 32) with 4294967296. rewrite <- (Z_mod_plus_full _ 1 4294967296).
        rewrite Z.mod_small; lia. }
      assert (U2 : u32 (hunits (idx s h) - needed) = hunits (idx s h) - needed).
      { unfold u32. change (2 ^ 32) with 4294967296. rewrite Z.mod_small; lia. }
      rewrite U1, U2.
      replace (_ <? _) with false by lia. replace (_ >? _) with true by lia. reflexivity. }
    rewrite B. apply Fin; [|discriminate]. intros h' E. injection E as <-. rewrite E1. auto.
  - apply Again. exact HA.
Qed.

(** no hole that owns units: the junk volume is zero *)
Lemma jv0_holes s L : Inv0 s L -> jv s = 0 -> forall k, ~ nzh s k.
Proof. intros H E k N. pose proof (hunits_le_jv s L H k N). destruct N as (_ & _ & U). lia. Qed.
Lemma jc_zero_hole s L : Inv0 s L -> jv s = 0 -> 1 <= jc s ->
  exists k, (k < cnt s)%nat /\ is_hole (idx s k) = true /\ hunits (idx s k) = 0.
Proof.
  intros H E Hj. pose proof (i_jc _ _ _ _ _ _ H) as A.
  destruct (sumn_pos (cnt s) (hcount s) (fun k _ => hcount_nonneg s k) ltac:(lia)) as (k & Kk & Pk).
  assert (Hh : is_hole (idx s k) = true) by (unfold hcount in Pk; destruct (is_hole (idx s k)); [reflexivity|cbn in Pk; lia]).
  exists k. split; [assumption|]. split; [assumption|].
  pose proof (hunits_range (idx s k)).
  destruct (Z.eq_dec (hunits (idx s k)) 0); [assumption|].
  elim (jv0_holes s L H E k). split; [assumption|split; [assumption|lia]].
Qed.

(** changing the length of the payload at the tail in place *)
Lemma tail_resize s L r u : Inv s L -> live s r -> 0 < L r -> 0 < u ->
  raddr s r + L r = tail s -> u - L r <= tail_space s ->
  resized s (with_tail s (tail s - L r + u)) L r u.
Proof.
  intros [H Hna Hnt] Hl HL Hu Et Hs. unfold tail_space in Hs.
  pose proof (live_bounds s L H r Hl HL) as [Bb Be].
  pose proof (i_cfg _ _ _ _ _ _ H) as Hc. destruct Hc as [c1 c2 c3 c4 c6].
  set (t := tail s - L r + u). set (s' := with_tail s t).
  assert (Hr : match r with RL k => (k < cnt s)%nat /\ is_hole (idx s k) = false | RP j => (j < nslots s)%nat end)
    by (destruct r; exact Hl).
  pose proof (P_ghost s L _ _ _ _ H r (Lset L r u) Hr) as A. rewrite Lset_same in A.
  specialize (A ltac:(lia) (fun r' N => Lset_other L r r' u N)).
  pose proof (P_tail s _ _ _ _ _ A t ltac:(unfold t; lia)) as B. fold s' in B.
  constructor.
  - constructor.
    + eapply InvD_eq; [exact B|..]; unfold zero_d; try (unfold t; lia).
      intros x. replace (tail s - base s) with ((raddr s r - base s) + L r) by lia.
      replace (t - base s) with ((raddr s r - base s) + u) by (unfold t; lia).
      rewrite !ind_split by lia. replace (base s + (raddr s r - base s)) with (raddr s r) by lia. lia.
    + exact Hna.
    + intros i Hi Ei. change (hole_end s' i) with (hole_end s i) in Ei. change (tail s') with t in Ei.
      pose proof (nzh_bounds s L H i Hi) as [_ Q]. pose proof (Hnt i Hi) as Nt.
      pose proof (proj2 (proj2 Hi)) as Ui. change (idx s' i) with (idx s i) in Ui.
      apply (nzh_live_disjoint s L H i r (t - 1) Hi Hl); [rewrite hole_end_eq in *; unfold t in *; lia|].
      rewrite hole_end_eq in *. unfold t in *. lia.
  - apply same_tail.
  - exact Hl.
  - reflexivity.
Qed.

Lemma lookup_exact_spec s L u : Inv0 s L -> 0 <= u <= 2047 ->
  match lookup_exact s u with
  | Some h => (h < cnt s)%nat /\ is_hole (idx s h) = true /\ hunits (idx s h) = u
  | None => forall k, (k < cnt s)%nat -> is_hole (idx s k) = true -> hunits (idx s k) <> u
  end.
Proof.
  intros H Hu. unfold lookup_exact.
  pose proof (jv_bound s L H) as Hb. pose proof (i_jvr _ _ _ _ _ _ H) as Hjvr.
  pose proof (i_cfg _ _ _ _ _ _ H) as Hc. destruct Hc as [c1 c2 c3 c4 c6].
  destruct ((jc s <? 1) || (jv s <? u)) eqn:E.
  - intros k Kk Hk Ek. pose proof (jc_pos s L H k Kk Hk).
    destruct (Z.eq_dec u 0) as [->|N].
    + pose proof (i_jvr _ _ _ _ _ _ H). lia.
    + pose proof (hunits_range (idx s k)).
      pose proof (hunits_le_jv s L H k ltac:(split; [assumption|split; [assumption|lia]])). lia.
  - apply (lookup_hole_gid s u (i_ent _ _ _ _ _ _ H)). lia.
Qed.

(** exchanging the payload with a hole of exactly the needed size *)
Lemma swap_spec s L r h needed : Inv s L -> live s r -> 0 < L r -> L r <= 2047 ->
  nzh s h -> hunits (idx s h) = needed ->
  (forall x, nzh s x -> hole_end s x <> raddr s r) ->
  (forall x, nzh s x -> hole_begin s x <> raddr s r + L r) ->
  let have := L r in
  let chunk := raddr s r in
  let s1 := set_rpayload s r (hole_begin s h) in
  let s2 := set_ent s1 h (set_units (set_payload s1 h (idx s1 h) chunk) have) in
  let s3 := with_jv s2 (jv s2 + u16 (have - needed)) in
  Inv0 s3 (Lset L r needed) /\ same s s3 (only r) /\ live s3 r /\
  (forall k, r = RL k -> gid (idx s3 k) = gid (idx s k)) /\ Pre s3 (Lset L r needed) h /\
  hole_begin s3 h = chunk /\ hole_end s3 h = chunk + have /\ tail s3 = tail s /\
  (forall x, nzh s3 x -> hole_end s3 x <> chunk) /\
  (forall x, nzh s3 x -> hole_begin s3 x <> chunk + have).
Proof.
  intros [H Hna Hnt] Hl HL Hcap Nh Uh HB HAf have chunk s1 s2 s3.
  assert (Nh0 := Nh). destruct Nh0 as (Kh & Hhh & Uh0).
  pose proof (nzh_bounds s L H h Nh) as [Bb Be]. rewrite hole_end_eq in Be.
  pose proof (live_bounds s L H r Hl HL) as [Cb Ce]. fold chunk have in Cb, Ce.
  pose proof (i_cfg _ _ _ _ _ _ H) as Hc. destruct Hc as [c1 c2 c3 c4 c6].
  pose proof (own_lt_base _ _ _ _ _ _ h H Kh) as Oh.
  pose proof (hunits_le_jv s L H h Nh) as Hv. pose proof (jv_bound s L H) as Hvb.
  pose proof (i_jvr _ _ _ _ _ _ H) as Hjvr.
  pose proof (detach s L r (Build_Inv _ _ H Hna Hnt) Hl HL) as G0.
  (* step 1: the hole is turned into a gap (shrink to zero), then attached *)
  set (L' := Lset L r needed).
  assert (R1 : InvD s1 L' (fun x => - ind chunk have x + ind (hole_begin s h) needed x) (needed - have) 0 0).
  { unfold s1, set_rpayload. destruct r as [k|j].
    - destruct Hl as [Kk Hk]. pose proof (own_lt_base _ _ _ _ _ _ k H Kk) as Ok.
      pose proof (i_ent _ _ _ _ _ _ H k Kk) as (Rk & Gk & _).
      cbn [set_rrel rown]. set (e1 := mkE (u16 (hole_begin s h - own s k)) (gid (idx s k))).
      assert (Er : rel e1 = hole_begin s h - own s k) by (cbn [e1 rel]; unfold u16; rewrite Z.mod_small; lia).
      assert (He : is_hole e1 = false) by exact Hk.
      assert (Ho : ent_ok e1) by (split; [lia|split; [exact Gk|congruence]]).
      pose proof (P_set s L _ _ _ _ H k e1 L' Kk Ho ltac:(unfold L'; rewrite Lset_same; lia)
                    (fun r' N => Lset_other L (RL k) r' needed N)) as A. cbv zeta in A.
      eapply InvD_eq; [exact A|..]; unfold zero_d, len, hcount, hvol, L'; rewrite Hk, He, ?Lset_same; cbn [Z.b2z];
        try (unfold have; lia).
      intros x. rewrite Er. replace (own s k + (hole_begin s h - own s k)) with (hole_begin s h) by lia.
      change (addr s k) with chunk. fold have. lia.
    - cbn [live] in Hl. specialize (c6 j Hl). cbn [rown].
      set (v := u16 (hole_begin s h - (pivot s + soff s j))) in *.
      assert (Ev : v = hole_begin s h - (pivot s + soff s j)) by (unfold v, u16, base in *; rewrite Z.mod_small; lia).
      pose proof (P_slot s L _ _ _ _ H j v L' Hl ltac:(unfold base in *; lia)
        ltac:(unfold L'; rewrite Lset_same; lia) (fun r' N => Lset_other L (RP j) r' needed N)) as A.
      eapply InvD_eq; [exact A|..]; unfold zero_d, L'; rewrite ?Lset_same; try (unfold have; lia).
      intros x. rewrite Ev. unfold rown.
      replace (pivot s + soff s j + (hole_begin s h - (pivot s + soff s j))) with (hole_begin s h) by lia.
      fold chunk have. lia. }
  assert (Nrh : r <> RL h) by (intros ->; destruct Hl as [_ X]; congruence).
  assert (C1 : cnt s1 = cnt s) by (unfold s1; destruct r; reflexivity).
  assert (Cf1 : cfg_eq s s1) by (unfold s1; destruct r; constructor; reflexivity).
  assert (Ih1 : forall i, r <> RL i -> idx s1 i = idx s i).
  { intros i N. unfold s1, set_rpayload. destruct r as [k|j]; [|reflexivity].
    cbn. apply fupd_other. congruence. }
  assert (Ow : forall i, own s1 i = own s i) by (intros; unfold own; rewrite (q_pivot _ _ Cf1); reflexivity).
  assert (Jv1 : jv s1 = jv s) by (unfold s1; destruct r; reflexivity).
  assert (Tl1 : tail s1 = tail s) by (unfold s1; destruct r; reflexivity).
  set (eh := set_units (set_payload s1 h (idx s1 h) chunk) have) in *.
  destruct (set_units_hole (set_payload s1 h (idx s1 h) chunk) have ltac:(lia)) as (S1 & S2 & S3 & S4).
  fold eh in S1, S2, S3, S4.
  assert (Er : rel eh = chunk - own s h).
  { rewrite S3. cbn [set_payload rel]. rewrite Ow. unfold u16. rewrite Z.mod_small; lia. }
  assert (Ho : ent_ok eh) by (split; [lia|split; [assumption|intros; lia]]).
  pose proof (P_hole s1 L' _ _ _ _ h eh R1 ltac:(lia) ltac:(rewrite Ih1 by assumption; assumption) S1 Ho) as B.
  fold s2 in B. rewrite Ih1 in B by assumption.
  assert (Ejv : u16 (jv s2 + u16 (have - needed)) = jv s - needed + have).
  { change (jv s2) with (jv s1). rewrite Jv1. unfold u16.
    rewrite Zplus_mod_idemp_r. rewrite Z.mod_small; [lia|].
    pose proof (i_tot _ _ _ _ _ _ (g_acc _ _ _ _ G0)) as T0. unfold total in T0.
    pose proof (i_jv _ _ _ _ _ _ (g_acc _ _ _ _ G0)) as V0.
    pose proof (i_len _ _ _ _ _ _ (g_acc _ _ _ _ G0)) as HL0.
    pose proof (sumn_nonneg (nslots s) (fun j => Lset L r 0 (RP j)) (fun j _ => HL0 (RP j))).
    assert (sumn (cnt s) (hvol s) <= sumn (cnt s) (len s (Lset L r 0))).
    { apply sumn_le. intros k _. unfold hvol, len. destruct (is_hole (idx s k)); [apply Z.le_refl|apply HL0]. }
    fold have in T0. unfold base in *. lia. }
  assert (Rng : 0 <= jv s - needed + have <= 65535).
  { pose proof (jv_live_bound s L H r Hl). unfold have, base in *. lia. }
  assert (E3 : s3 = with_jv s2 (jv s - needed + have)).
  { unfold s3, with_jv. f_equal. rewrite Ejv. unfold u16. rewrite Z.mod_small; [reflexivity|lia]. }
  assert (R3 : Inv0 s3 L').
  { rewrite E3. pose proof (P_jv _ _ _ _ _ _ B (jv s - needed + have)) as A.
    specialize (A Rng).
    eapply InvD_eq; [exact A|..]; unfold zero_d; rewrite ?S2, ?Uh; change (jv s2) with (jv s1); rewrite ?Jv1; try lia.
    intros x. unfold addr. rewrite Ow, Er, Ih1 by assumption.
    change (own s h + rel (idx s h)) with (hole_begin s h).
    replace (own s h + (chunk - own s h)) with chunk by lia. lia. }
  assert (I3h : idx s3 h = eh) by (cbn; apply fupd_same).
  assert (I3o : forall i, i <> h -> r <> RL i -> idx s3 i = idx s i).
  { intros i N N'. cbn [s3 s2 with_jv set_ent with_idx idx]. rewrite fupd_other by assumption. apply Ih1; assumption. }
  assert (Cf3 : cfg_eq s s3) by (destruct Cf1; constructor; assumption).
  assert (I3r : forall k, r = RL k -> gid (idx s3 k) = gid (idx s k) /\ is_hole (idx s3 k) = is_hole (idx s k)).
  { intros k ->. cbn [s3 s2 with_jv set_ent with_idx idx]. rewrite fupd_other by congruence.
    unfold s1, set_rpayload. cbn. rewrite fupd_same. split; reflexivity. }
  assert (N3 : forall x, x <> h -> nzh s3 x -> nzh s x /\ hole_begin s3 x = hole_begin s x /\ hole_end s3 x = hole_end s x).
  { intros x N (X1 & X2 & X3).
    assert (Nr : r <> RL x).
    { intros E. destruct (I3r x E) as [_ Y]. rewrite Y in X2. subst r. destruct Hl as [_ Z]. congruence. }
    rewrite I3o in X2, X3 by assumption. split; [split; [rewrite <- C1; exact X1|auto]|].
    apply same_idx_be; [assumption|apply I3o; assumption]. }
  assert (Ow3 : own s3 h = own s h) by (unfold own; rewrite (q_pivot _ _ Cf3); reflexivity).
  assert (Bb3 : hole_begin s3 h = chunk) by (unfold hole_begin, addr; rewrite I3h, Ow3, Er; lia).
  assert (Be3 : hole_end s3 h = chunk + have) by (rewrite hole_end_eq, Bb3, I3h, S2; reflexivity).
  assert (Nz3 : nzh s3 h) by (split; [rewrite <- C1 in Kh; exact Kh|rewrite I3h; split; [assumption|lia]]).
  split; [assumption|]. split.
  { constructor; [assumption|..].
    - intros [i|j] N.
      + assert (r <> RL i) by (intros ->; apply N; reflexivity).
        unfold live. change (cnt s3) with (cnt s1). rewrite C1.
        destruct (Nat.eq_dec i h) as [->|Ni]; [rewrite I3h, S1, Hhh; tauto|rewrite I3o by assumption; tauto].
      + unfold live. rewrite (q_nslots _ _ Cf3). tauto.
    - intros k N [_ Hk]. assert (r <> RL k) by (intros ->; apply N; reflexivity).
      apply I3o; [intros ->; congruence|assumption].
    - intros j N. cbn [s3 s2 with_jv set_ent with_idx pre]. unfold s1, set_rpayload.
      destruct r as [k|j']; [reflexivity|]. cbn. apply fupd_other. intros ->. apply N. reflexivity.
    - intros k N Hk. assert (r <> RL k) by (intros ->; apply N; reflexivity).
      destruct (Nat.eq_dec k h) as [->|Nk]; [rewrite I3h; exact S1|rewrite I3o by assumption; exact Hk]. }
  split.
  { destruct r as [k|j]; cbn [live].
    - destruct Hl as [Kk Hk]. split; [change (cnt s3) with (cnt s1); lia|].
      destruct (I3r k eq_refl) as [_ Y]. rewrite Y. assumption.
    - rewrite (q_nslots _ _ Cf3). exact Hl. }
  split; [intros k E; apply (proj1 (I3r k E))|]. split.
  { constructor; auto.
    - intros i j Hi Hj Ni Nj. destruct (N3 i Ni Hi) as (X1 & _ & X3). destruct (N3 j Nj Hj) as (Y1 & Y2 & _).
      rewrite X3, Y2. apply Hna; assumption.
    - intros i Hi Ni. destruct (N3 i Ni Hi) as (X1 & _ & X3). rewrite X3.
      change (tail s3) with (tail s1). rewrite Tl1. apply Hnt; assumption. }
  split; [assumption|]. split; [assumption|]. split; [exact Tl1|]. split.
  - intros x X. destruct (Nat.eq_dec x h) as [->|N]; [rewrite Be3; lia|].
    destruct (N3 x N X) as (Y1 & _ & Y3). rewrite Y3. apply HB; assumption.
  - intros x X. destruct (Nat.eq_dec x h) as [->|N]; [rewrite Bb3; lia|].
    destruct (N3 x N X) as (Y1 & Y2 & _). rewrite Y2. apply HAf; assumption.
Qed.

(** ** Resizing *)
(** Resizing would need a hole of more than 2047 units, or would search for one (the exact search
    of gear.cxx:117-124 builds the tag of the hole in 16 bits). The cases follow [realloc_data]. *)
Definition wide_slip (s : st) (r : ref) (have needed : Z) : bool :=
  if jv s =? 0 then
    negb (raddr s r + have =? tail s) && (2047 <? (if needed >? have then have else have - needed))
  else
    let adjacent := beside s (raddr s r) (raddr s r + have) in
    if negb ((have <? needed) && (have + adjacent >=? needed)) &&
       negb (adjacent >? 0) && negb (head_space s >? 0) &&
       match lookup_exact s 0 with Some _ => false | None => true end
    then match lookup_exact s needed with
         | Some _ => (2047 <? have) || (2047 <? needed)
         | None => false
         end
    else negb (raddr s r + have =? tail s) && (2047 <? have + adjacent).

Lemma realloc_data_spec s L r needed : Inv s L -> live s r -> 0 < L r -> 0 < needed < 65536 ->
  needed <> L r -> wide_slip s r (L r) needed = false ->
  match realloc_data repaired s r (L r) needed with
  | Ok _ s' => resized s s' L r needed
  | Throw s' => s' = s /\
      (index_full s \/
       (L r < needed /\ tail_space s < needed - (if raddr s r + L r =? tail s then if jv s =? 0 then L r else 0 else 0)
        /\ (forall k, nzh s k -> hunits (idx s k) < needed) /\
        exists ba, adj_ok s (raddr s r) (raddr s r + L r) ba /\ L r + hu s (fst ba) + hu s (snd ba) < needed))
  | Bad => False
  end.
Proof.
  intros Hi Hl HL Hn Hne Hcap. assert (Hi0 := Hi). destruct Hi0 as [H Hna Hnt].
  pose proof (live_bounds s L H r Hl HL) as [Cb Ce].
  pose proof (i_cfg _ _ _ _ _ _ H) as Hc. destruct Hc as [c1 c2 c3 c4 c6].
  pose proof (lookup_adjacent_spec s (raddr s r) (raddr s r + L r)
    ltac:(pose proof (i_jc _ _ _ _ _ _ H); lia)) as ([bf af] & Ela & Hadj).
  assert (Hadj0 := Hadj). destruct Hadj0 as [Hb Ha]. cbn [fst snd] in Hb, Ha.
  unfold realloc_data. unfold wide_slip, beside in Hcap. rewrite Ela in Hcap. cbn [fst snd] in Hcap.
  assert (Inplace : raddr s r + L r = tail s ->
    match (if (L r <? needed) && (tail_space s <? needed - L r) then Throw s
           else Ok tt (with_tail s (tail s - L r + needed))) with
    | Ok _ s' => resized s s' L r needed
    | Throw s' => s' = s /\ L r < needed /\ tail_space s < needed - L r
    | Bad => False end).
  { intros Et. destruct ((L r <? needed) && (tail_space s <? needed - L r)) eqn:E.
    - split; [reflexivity|]. lia.
    - apply tail_resize; auto; [lia|]. unfold tail_space in *. lia. }
  destruct (jv s =? 0) eqn:Ejv.
  - (* no junk *)
    assert (NoH : forall k, ~ nzh s k) by (apply (jv0_holes s L H); lia).
    assert (Hbf : bf = None) by (destruct bf as [b|]; [elim (NoH b); apply Hb|reflexivity]).
    assert (Haf : af = None) by (destruct af as [a|]; [elim (NoH a); apply Ha|reflexivity]).
    rewrite Hbf, Haf in *. cbn [hu] in *.
    destruct (raddr s r + L r =? tail s) eqn:Et.
    + specialize (Inplace ltac:(lia)).
      destruct ((L r <? needed) && (tail_space s <? needed - L r)); [|exact Inplace].
      destruct Inplace as (E & X & Y). split; [assumption|]. right.
      split; [assumption|]. split; [lia|]. split; [intros k Nk; elim (NoH k Nk)|].
      exists (None, None). split; [assumption|]. cbn. lia.
    + destruct (needed >? L r) eqn:Eg.
      * destruct ((tail_space s <? needed) || (head_space s + jc s <? 1)) eqn:E.
        { split; [reflexivity|]. destruct (tail_space s <? needed) eqn:E'.
          - right. split; [lia|]. split; [lia|]. split; [intros k Nk; elim (NoH k Nk)|].
            exists (None, None). split; [assumption|]. cbn. lia.
          - left. pose proof (i_jcr _ _ _ _ _ _ H). split; [unfold head_space in *; lia|].
            intros k Kk Hk. pose proof (jc_pos s L H k Kk Hk). unfold head_space in *. lia. }
        pose proof (index_alloc_spec _ _ _ _ _ H) as Q.
        destruct (index_alloc s) as [k s1|s1|] eqn:Ei; cbn [bind]; [| |contradiction].
        2:{ exfalso. destruct Q as [-> [Q1 Q2]].
            destruct (jc_zero_hole s L H ltac:(lia)) as (k & Kk & Hk & Uk); [lia|].
            apply (Q2 k Kk Hk Uk). }
        (* releasing the chunk is the same as release_data_at; do it directly *)
        pose proof (detach s L r Hi Hl HL) as G.
        pose proof (release_data_at_spec s _ _ _ None None None G Hadj ltac:(cbn [hu]; lia) ltac:(discriminate)) as R.
        unfold release_data_at in R. rewrite Et in R.
        set (s1' := with_jv s (jv s + L r)) in R.
        assert (Ei' : index_alloc s1' = Ok k (with_jv s1 (jv s + L r))).
        { unfold index_alloc in Ei |- *. change (jc s1') with (jc s). change (lookup_gid s1') with (lookup_gid s).
          change (head_space s1') with (head_space s).
          destruct (if jc s >? 0 then lookup_gid s (u16 (make_hole 0)) else None).
          - injection Ei as <- <-. reflexivity.
          - destruct (head_space s <? 1); [discriminate|]. injection Ei as <- <-. reflexivity. }
        rewrite Ei' in R. cbn [bind] in R.
        destruct Q as (Q1 & Q2 & Q3 & Q4 & Q5 & Q6 & Q7 & Q8 & Q9 & Q10 & Q11 & Q12).
        assert (Er1 : raddr s1 r = raddr s r).
        { unfold raddr. destruct r as [i|j]; cbn [rown rrel];
            [unfold own; rewrite (q_pivot _ _ Q1), Q2|rewrite (q_pivot _ _ Q1), (q_soff _ _ Q1), Q3]; reflexivity. }
        rewrite Er1.
        match goal with R : Inv ?S _ /\ _ |- _ => set (s2 := S) in R end.
        destruct R as (I2 & S2 & T2 & (O1 & O2 & O3) & K2).
        match goal with |- context [tail_alloc ?S needed] => replace S with s2 end.
        2:{ unfold s2, set_ent, with_jc, with_jv, with_idx. cbn. rewrite Q5. reflexivity. }
        assert (Hl2 : live s2 r) by (apply (f_live _ _ _ S2); auto).
        destruct (alloc_attach s s2 _ r needed None I2 S2 Hl2 (Lset_same L r 0) ltac:(lia) ltac:(discriminate))
          as (s' & Ea & R).
        { intros _. unfold tail_space in *. rewrite (q_end _ _ (f_cfg _ _ _ S2)). lia. }
        cbn [alloc_data_at] in Ea. rewrite Ea. eapply resized_Lext; [|exact R].
        intros x. symmetry. apply Lset_twice.
      * (* shrinking in place: the rest becomes a hole *)
        set (rest := L r - needed).
        assert (Gr : Gap s (Lset L r needed) (raddr s r + needed) rest).
        { constructor; auto; [|unfold rest; lia].
          assert (Hr : match r with RL k => (k < cnt s)%nat /\ is_hole (idx s k) = false | RP j => (j < nslots s)%nat end)
            by (destruct r; exact Hl).
          pose proof (P_ghost s L _ _ _ _ H r (Lset L r needed) Hr) as A. rewrite Lset_same in A.
          specialize (A ltac:(lia) (fun r' N => Lset_other L r r' needed N)).
          eapply InvD_eq; [exact A|..]; unfold zero_d; try (unfold rest; lia).
          intros x. replace (L r) with (needed + rest) by (unfold rest; lia).
          rewrite ind_split by (unfold rest; lia). lia. }
        assert (Hadj' : adj_ok s (raddr s r + needed) (raddr s r + needed + rest) (None, None)).
        { split; cbn [fst snd]; intros k Nk; elim (NoH k Nk). }
        pose proof (release_data_at_spec s _ _ _ None None None Gr Hadj' ltac:(cbn [hu]; unfold rest; lia) ltac:(discriminate)) as R.
        unfold release_data_at in R.
        replace (raddr s r + needed + rest =? tail s) with false in R by (unfold rest; lia).
        set (s1' := with_jv s (jv s + rest)) in R.
        destruct (index_alloc s) as [k s1|s1|] eqn:Ei; cbn [bind].
        -- assert (Ei' : index_alloc s1' = Ok k (with_jv s1 (jv s + rest)) /\ jv s1 = jv s).
           { unfold index_alloc in Ei |- *. change (jc s1') with (jc s). change (lookup_gid s1') with (lookup_gid s).
             change (head_space s1') with (head_space s).
             destruct (if jc s >? 0 then lookup_gid s (u16 (make_hole 0)) else None).
             - injection Ei as <- <-. split; reflexivity.
             - destruct (head_space s <? 1); [discriminate|]. injection Ei as <- <-. split; reflexivity. }
           destruct Ei' as [Ei' Ej'].
           rewrite Ei' in R. cbn [bind] in R.
           pose proof (index_alloc_spec _ _ _ _ _ H) as Q. rewrite Ei in Q.
           destruct Q as (Q1 & Q2 & Q3 & Q4 & Q5 & Q6 & Q7 & Q8 & Q9 & Q10 & Q11 & Q12).
           assert (Er1 : raddr s1 r = raddr s r).
           { unfold raddr. destruct r as [i|j]; cbn [rown rrel];
               [unfold own; rewrite (q_pivot _ _ Q1), Q2|rewrite (q_pivot _ _ Q1), (q_soff _ _ Q1), Q3]; reflexivity. }
           rewrite Er1. fold rest.
           match goal with R : Inv ?S _ /\ _ |- _ => set (s2 := S) in R end.
           destruct R as (I2 & S2 & T2 & (O1 & O2 & O3) & K2).
           match goal with |- resized _ ?S _ _ _ => replace S with s2 end.
           2:{ unfold s2, set_ent, with_jc, with_jv, with_idx. cbn. rewrite Ej'. reflexivity. }
           constructor; auto.
           ++ eapply same_weaken; [exact S2|intros x []].
           ++ apply (f_live _ _ _ S2); auto.
           ++ intros i ->. rewrite (f_ent _ _ _ S2); auto.
        -- pose proof (index_alloc_spec _ _ _ _ _ H) as Q. rewrite Ei in Q. destruct Q as [-> Q]. auto.
        -- pose proof (index_alloc_spec _ _ _ _ _ H) as Q. rewrite Ei in Q. contradiction.
  - rewrite Ela. cbn [fst snd]. fold (hu s bf) (hu s af).
    assert (Hhb : 0 <= hu s bf) by (destruct bf as [b|]; cbn [hu]; [pose proof (hunits_range (idx s b))|]; lia).
    assert (Hha : 0 <= hu s af) by (destruct af as [b|]; cbn [hu]; [pose proof (hunits_range (idx s b))|]; lia).
    set (adjacent := hu s bf + hu s af) in *.
    destruct ((L r <? needed) && (L r + adjacent >=? needed)) eqn:E1.
    { destruct (release_and_alloc_spec s L r needed bf af None None Hi Hl HL Hn Hadj
        ltac:(cbn [negb andb] in Hcap; unfold adjacent in *; lia)) as (s' & E & R).
      - discriminate.
      - left. fold adjacent. lia.
      - left. unfold adjacent in *. lia.
      - rewrite E. exact R. }
    cbn [negb andb] in Hcap.
    set (hole0 := if (adjacent >? 0) || (head_space s >? 0) then None else lookup_exact s 0).
    pose proof (lookup_exact_spec s L 0 H ltac:(lia)) as Q0.
    assert (H0 : forall h, hole0 = Some h -> (h < cnt s)%nat /\ is_hole (idx s h) = true /\ hunits (idx s h) = 0).
    { intros h E. unfold hole0 in E. destruct ((adjacent >? 0) || (head_space s >? 0)); [discriminate|].
      rewrite E in Q0. exact Q0. }
    destruct ((adjacent >? 0) || (head_space s >? 0) ||
              match hole0 with Some _ => true | None => false end) eqn:Ec; cbn [negb].
    + assert (Cap : raddr s r + L r = tail s \/ L r + hu s bf + hu s af <= 2047).
      { unfold hole0 in Ec.
        destruct (adjacent >? 0) eqn:E3; [cbn [negb andb] in Hcap; unfold adjacent in *; lia|].
        destruct (head_space s >? 0) eqn:E4; [cbn [negb andb] in Hcap; unfold adjacent in *; lia|].
        cbn [orb] in Ec. destruct (lookup_exact s 0); [|discriminate].
        cbn [negb andb] in Hcap. unfold adjacent in *; lia. }
      assert (HR : 0 < hu s bf + hu s af \/ head_space s > 0 \/ hole0 <> None).
      { fold adjacent. destruct hole0; [right; right; discriminate|]. lia. }
      destruct ((L r >? needed) || (needed <=? tail_space s)) eqn:E2.
      * destruct (release_and_alloc_spec s L r needed bf af hole0 None Hi Hl HL Hn Hadj Cap H0 HR) as (s' & E & R).
        { lia. } rewrite E. exact R.
      * destruct (lookup_fit_spec s L needed H ltac:(lia)) as (o & El & Ho). rewrite El.
        destruct o as [h|].
        -- destruct Ho as (Nh & Uh & _).
           destruct (release_and_alloc_spec s L r needed bf af hole0 (Some h) Hi Hl HL Hn Hadj Cap H0 HR) as (s' & E & R).
           { split; [assumption|]. split; [assumption|]. unfold adjacent in *. lia. }
           rewrite E. exact R.
        -- split; [reflexivity|]. right. split; [lia|].
           split; [destruct (raddr s r + L r =? tail s); lia|]. split; [assumption|].
           exists (bf, af). split; [assumption|]. cbn [fst snd]. unfold adjacent in *. lia.
    + (* the index is full *)
      assert (Full : index_full s).
      { unfold hole0 in Ec. destruct ((adjacent >? 0) || (head_space s >? 0)) eqn:E3; [cbn in Ec; discriminate|].
        destruct (lookup_exact s 0); [cbn in Ec; discriminate|]. split; [lia|exact Q0]. }
      assert (Adj0 : adjacent = 0) by lia.
      assert (Hbf : bf = None).
      { destruct bf as [b|]; [|reflexivity]. destruct Hb as [(_ & _ & U) _]. unfold adjacent in Adj0. cbn [hu] in *. lia. }
      assert (Haf : af = None).
      { destruct af as [b|]; [|reflexivity]. destruct Ha as [(_ & _ & U) _]. unfold adjacent in Adj0. cbn [hu] in *. lia. }
      subst bf af.
      assert (Hcap' : match lookup_exact s needed with
        | Some _ => (2047 <? L r) || (2047 <? needed) | None => false end = false).
      { unfold hole0 in Ec. replace (adjacent >? 0) with false in Hcap, Ec by lia.
        destruct (head_space s >? 0); [discriminate|]. cbn [negb andb orb] in Hcap, Ec.
        destruct (lookup_exact s 0); [discriminate|exact Hcap]. }
      clear Hcap.
      destruct (lookup_exact s needed) as [h|] eqn:Ex.
      * pose proof (lookup_exact_spec s L needed H ltac:(lia)) as Q1. rewrite Ex in Q1. destruct Q1 as (Kh & Hh & Uh).
        assert (Nh : nzh s h) by (split; [assumption|split; [assumption|lia]]).
        destruct (swap_spec s L r h needed Hi Hl HL ltac:(lia) Nh Uh Hb Ha) as (A1 & A2 & A3 & A4 & A5 & A6 & A7 & A8 & A9 & A10).
        cbv zeta in A1, A2, A3, A4, A5, A6, A7, A8, A9, A10.
        set (s3 := with_jv _ _) in A1, A2, A3, A4, A5, A6, A7, A8, A9, A10.
        fold s3. cbn [q_swap repaired].
        destruct (raddr s r + L r =? tail s3) eqn:Et.
        -- destruct (evaporate_spec s3 _ h A5) as (B1 & B2 & B3 & B4 & B5).
           { rewrite A7. lia. } { intros x X. rewrite A6. apply A9; assumption. }
           assert (Uh3 : hunits (idx s3 h) = L r).
           { rewrite hole_end_eq, A6 in A7. lia. }
           rewrite Uh3 in B1, B2, B3, B4, B5.
           constructor; auto.
           ++ eapply same_trans; [exact A2|eapply same_weaken; [exact B2|intros x []]].
           ++ apply (f_live _ _ _ B2); auto.
           ++ intros k Ek. rewrite <- (A4 k Ek). rewrite (f_ent _ _ _ B2); auto. subst r. exact A3.
        -- constructor; auto. constructor; [assumption|..].
           ++ intros i j Hi' Hj'. destruct (Nat.eq_dec j h) as [->|Nj]; [rewrite A6; apply A9; assumption|].
              destruct (Nat.eq_dec i h) as [->|Ni]; [|apply (p_nonadj _ _ _ A5); assumption].
              rewrite A7. intros X. apply (A10 j Hj'). auto.
           ++ intros i Hi'. destruct (Nat.eq_dec i h) as [->|Ni]; [rewrite A7; lia|].
              apply (p_notail _ _ _ A5); assumption.
      * destruct (raddr s r + L r =? tail s) eqn:Et.
        -- specialize (Inplace ltac:(lia)).
           destruct ((L r <? needed) && (tail_space s <? needed - L r)); [|exact Inplace].
           destruct Inplace as (E & X & Y). split; [assumption|]. left. assumption.
        -- split; [reflexivity|]. left. assumption.
Qed.

(** the holes that touch a run are unique *)
Lemma adj_ok_hu s L b e x y : Inv0 s L -> adj_ok s b e x -> adj_ok s b e y ->
  hu s (fst x) = hu s (fst y) /\ hu s (snd x) = hu s (snd y).
Proof.
  intros H [X1 X2] [Y1 Y2]. split.
  - destruct (fst x) as [i|], (fst y) as [k|]; cbn [hu]; try reflexivity.
    + destruct X1 as [Ni Ei]. destruct Y1 as [Nk Ek].
      destruct (Nat.eq_dec i k) as [->|N]; [reflexivity|exfalso].
      pose proof (proj2 (proj2 Ni)). pose proof (proj2 (proj2 Nk)). rewrite hole_end_eq in Ei, Ek.
      apply (nzh_disjoint s L H i k (b - 1) Ni Nk N); rewrite hole_end_eq; lia.
    + destruct X1 as [Ni Ei]. elim (Y1 i Ni Ei).
    + destruct Y1 as [Ni Ei]. elim (X1 k Ni Ei).
  - destruct (snd x) as [i|], (snd y) as [k|]; cbn [hu]; try reflexivity.
    + destruct X2 as [Ni Ei]. destruct Y2 as [Nk Ek].
      destruct (Nat.eq_dec i k) as [->|N]; [reflexivity|exfalso].
      pose proof (proj2 (proj2 Ni)). pose proof (proj2 (proj2 Nk)).
      apply (nzh_disjoint s L H i k e Ni Nk N); rewrite hole_end_eq; lia.
    + destruct X2 as [Ni Ei]. elim (Y2 i Ni Ei).
    + destruct Y2 as [Ni Ei]. elim (X2 k Ni Ei).
Qed.

Lemma beside_adj s L b e ba : Inv0 s L -> adj_ok s b e ba -> beside s b e = hu s (fst ba) + hu s (snd ba).
Proof.
  intros H Hba. unfold beside.
  destruct (lookup_adjacent_spec s b e ltac:(pose proof (i_jc _ _ _ _ _ _ H); lia)) as (x & -> & Hx).
  destruct (adj_ok_hu s L b e x ba H Hx Hba). lia.
Qed.
Lemma beside_nonneg s b e : 0 <= beside s b e.
Proof.
  unfold beside. destruct (lookup_adjacent s b e) as [ba|]; [|lia].
  pose proof (hu_range s (fst ba)). pose proof (hu_range s (snd ba)). lia.
Qed.
(** the touching holes are part of the junk *)
Lemma beside_le s L b e : Inv0 s L -> b <= e -> beside s b e <= jv s.
Proof.
  intros H Hbe. unfold beside. pose proof (i_jvr _ _ _ _ _ _ H) as R.
  destruct (lookup_adjacent_spec s b e ltac:(pose proof (i_jc _ _ _ _ _ _ H); lia)) as ([x y] & -> & Hx & Hy).
  cbn [fst snd] in *. destruct x as [i|], y as [k|]; cbn [hu]; try lia.
  - destruct Hx as [Ni Ei]. destruct Hy as [Nk Ek].
    assert (N : i <> k).
    { intros ->. pose proof (proj2 (proj2 Ni)). rewrite hole_end_eq in Ei. lia. }
    pose proof (hunits2_le_jv s L H i k Ni Nk N). lia.
  - destruct Hx as [Ni Ei]. pose proof (hunits_le_jv s L H i Ni). lia.
  - destruct Hy as [Ni Ei]. pose proof (hunits_le_jv s L H k Ni). lia.
Qed.
Lemma beside_nojunk s L b e : Inv0 s L -> jv s = 0 -> beside s b e = 0.
Proof.
  intros H Hj. unfold beside.
  destruct (lookup_adjacent_spec s b e ltac:(pose proof (i_jc _ _ _ _ _ _ H); lia)) as ([x y] & -> & Hx & Hy).
  cbn [fst snd] in *. pose proof (jv0_holes s L H Hj) as N.
  destruct x as [i|]; [elim (N i); apply Hx|]. destruct y as [i|]; [elim (N i); apply Hy|]. reflexivity.
Qed.

Lemma wide_hole_cap s L c u : Inv0 s L -> wide_hole s c u = false ->
  u = 0 \/ forall ba, adj_ok s c (c + u) ba -> u + hu s (fst ba) + hu s (snd ba) <= 2047.
Proof.
  intros H E. unfold wide_hole in E. destruct (u =? 0) eqn:E0; [left; lia|right].
  cbn [negb andb] in E. intros ba Hba. rewrite (beside_adj s L c (c + u) ba H Hba) in E. lia.
Qed.
(** with little junk no hole can become too wide *)
Lemma wide_hole_small s L c u : Inv0 s L -> 0 <= u -> jv s + u <= 2047 -> wide_hole s c u = false.
Proof.
  intros H Hu Hj. unfold wide_hole. pose proof (beside_le s L c (c + u) H ltac:(lia)).
  destruct (u =? 0); cbn [negb andb]; lia.
Qed.
Lemma wide_slip_small s L r have needed : Inv0 s L -> 0 < have -> 0 <= needed ->
  jv s + have <= 2047 -> wide_slip s r have needed = false.
Proof.
  intros H Hh Hn Hj. unfold wide_slip.
  pose proof (i_jvr _ _ _ _ _ _ H) as R.
  destruct (jv s =? 0) eqn:Ej; [destruct (needed >? have) eqn:En; lia|].
  pose proof (beside_le s L (raddr s r) (raddr s r + have) H ltac:(lia)). cbv zeta.
  destruct (_ && _ && _ && _); [|lia].
  destruct (lookup_exact s needed) as [h|] eqn:E; [|reflexivity].
  unfold lookup_exact in E. destruct ((jc s <? 1) || (jv s <? needed)) eqn:El; [discriminate|]. lia.
Qed.
Lemma wide_slip_end s r have needed : jv s = 0 -> raddr s r + have = tail s ->
  wide_slip s r have needed = false.
Proof. intros Hj Ht. unfold wide_slip. rewrite Hj, Ht, (Z.eqb_refl (tail s)). reflexivity. Qed.
